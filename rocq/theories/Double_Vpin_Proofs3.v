(** Running VPIN with [Arith_rounded] is running it with [Arith_double]. *)
From Coq Require Import Reals ZArith QArith Qreals Lra Lia List.
From Verif Require Import Prelude PreludeFacts Num Series Feat_Model Roll_Model Double_Model Rounding_Model Rounding_Proofs Rounding_Arith_Model Rounding_Arith_Proofs
  Double_Vpin_Model Double_Vpin_Proofs2.
Import ListNotations.
Local Open Scope R_scope.

Lemma real_asub x y : Q2R (@asub Q RA x y) = @asub R DA (Q2R x) (Q2R y).
Proof. unfold asub. rewrite real_aadd. cbn [aopp Arith_double Arith_rounded]. now rewrite Q2R_opp. Qed.
Lemma real_eabs x : real (@eabs Q RA x) = @eabs R DA (real x).
Proof.
  destruct x; cbn [eabs real]; try reflexivity. change (@a0 R DA) with 0. rewrite <- real_0, real_altb. change (@a0 Q RA) with 0%Q.
  destruct (altb a 0%Q); [|reflexivity]. f_equal. apply Q2R_opp.
Qed.
Lemma real_is_nan x : is_nan (real x) = is_nan x. Proof. now destruct x. Qed.
Definition real_kahan (s : kahan Q) : kahan R := {| k_nobs := k_nobs s; k_sum := Q2R (k_sum s); k_add := Q2R (k_add s); k_remove := Q2R (k_remove s) |}.
Lemma real_add_sum s v : real_kahan (@add_sum Q RA s v) = @add_sum R DA (real_kahan s) (Q2R v).
Proof. unfold add_sum, real_kahan. cbn [k_nobs k_sum k_add k_remove]. now rewrite !real_asub, !real_aadd, !real_asub. Qed.
Lemma real_remove_sum s v : real_kahan (@remove_sum Q RA s v) = @remove_sum R DA (real_kahan s) (Q2R v).
Proof.
  unfold remove_sum, real_kahan. cbn [k_nobs k_sum k_add k_remove]. rewrite !real_asub, !real_aadd, !real_asub. cbn [aopp Arith_double Arith_rounded]. now rewrite Q2R_opp.
Qed.
Lemma real_fold (f : kahan Q -> Q -> kahan Q) (h : kahan R -> R -> kahan R) : (forall s v, real_kahan (f s v) = h (real_kahan s) (Q2R v)) ->
  forall l s, real_kahan (fold_left (if_finite f) l s) = fold_left (if_finite h) (map real l) (real_kahan s).
Proof. intros H l. induction l as [|[x| | |] l IH]; intros s; cbn [fold_left map if_finite real]; [reflexivity| |apply IH..]. now rewrite IH, H. Qed.
Lemma real_roll w l : forall rows s, map real (roll_loop (if_finite (@add_sum Q RA)) (if_finite (@remove_sum Q RA)) (@calc_sum Q w) w l s rows) =
  roll_loop (if_finite (@add_sum R DA)) (if_finite (@remove_sum R DA)) (@calc_sum R w) w (map real l) (real_kahan s) rows.
Proof.
  induction rows as [|i rows IH]; intros s; [reflexivity|]. cbn [roll_loop map]. rewrite IH. rewrite !slice_map.
  rewrite (real_fold _ _ real_add_sum), (real_fold _ _ real_remove_sum).
  replace (map real match i with 0%nat => [] | S j => slice (start w j) (start w i) l end) with (match i with 0%nat => [] | S j => map real (slice (start w j) (start w i) l) end) by now destruct i.
  assert (C : forall s, real (@calc_sum Q w s) = @calc_sum R w (real_kahan s)) by (intros; unfold calc_sum; cbn [k_nobs real_kahan]; now destruct (Nat.leb _ _)).
  rewrite C, (real_fold _ _ real_add_sum), (real_fold _ _ real_remove_sum). destruct i; rewrite ?slice_map; reflexivity.
Qed.
Lemma real_kahan_sum w l : map real (@kahan_sum Q RA w l) = @kahan_sum R DA w (map real l).
Proof.
  unfold kahan_sum, roll. rewrite real_roll, map_length. f_equal. unfold real_kahan. cbn [k_nobs k_sum k_add k_remove a0 Arith_rounded Arith_double]. now rewrite real_0.
Qed.
Lemma real_zipw (f : ext Q -> ext Q -> ext Q) (h : ext R -> ext R -> ext R) : (forall x y, real (f x y) = h (real x) (real y)) ->
  forall a b, map real (zipw f a b) = zipw h (map real a) (map real b).
Proof. intros H a. unfold zipw. induction a as [|x a IH]; intros [|y b]; cbn; try reflexivity. now rewrite H, IH. Qed.
Lemma c115_executable w v b s :
  @vpin_values R DA w (map real v) (map real b) (map real s) = match @vpin_values Q RA w v b s with Ok out => Ok (map real out) | Err e => Err e end.
Proof.
  unfold vpin_values. cbv zeta. rewrite !no_nan_A. cbn [raise_if bind]. f_equal.
  rewrite map_app, <- firstn_map, map_map.
  assert (E : map real (zipw (@ediv Q RA) (@kahan_sum Q RA w (map (@eabs Q RA) (zipw (@esub Q RA) b s))) (@kahan_sum Q RA w v)) =
    zipw (@ediv R DA) (@kahan_sum R DA w (map (@eabs R DA) (zipw (@esub R DA) (map real b) (map real s)))) (@kahan_sum R DA w (map real v))).
  { rewrite (real_zipw _ _ real_ediv), !real_kahan_sum. f_equal. f_equal. rewrite <- (real_zipw _ _ real_esub). rewrite !map_map. apply map_ext. intros x. apply real_eabs. }
  rewrite <- E. f_equal. rewrite skipn_map, map_map. apply map_ext. intros x. rewrite real_is_nan. destruct (is_nan x); [|reflexivity].
  cbn [real]. f_equal. symmetry. apply real_0.
Qed.
