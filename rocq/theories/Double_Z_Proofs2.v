(** The rolling variance with rounded rationals, and the z-score from it. *)
From Coq Require Import Reals ZArith QArith Qreals Lra Lia List String.
From Verif Require Import Prelude PreludeFacts Num Series DailyVol_Model Feat_Model Feat_Spec Feat_Proofs Feat_Proofs3 Feat_Proofs4 Roll_Model Roll_Proofs
  Double_Model Double_Spec Double_Proofs Double_Proofs2 Rounding_Model Rounding_Proofs Rounding_Arith_Model Rounding_Arith_Proofs
  Double_Vpin_Model Double_Vpin_Spec Double_Vpin_Proofs Double_Vpin_Proofs2 Double_Vpin_Proofs3 Double_Cross_Model Double_Cross_Proofs Double_Cross_Proofs2 Double_Z_Model Double_Z_Proofs.
Import ListNotations.
Local Open Scope R_scope.
Local Notation length := List.length.

Definition real_welford (s : welford Q) : welford R :=
  {| w_nobs := w_nobs s; w_mean := Q2R (w_mean s); w_ssqdm := Q2R (w_ssqdm s); w_add := Q2R (w_add s); w_remove := Q2R (w_remove s) |}.
Lemma real_add_var s v : (Z.of_nat (S (w_nobs s)) <= 2 ^ 53)%Z -> real_welford (@add_var Q RA s v) = @add_var R DA (real_welford s) (Q2R v).
Proof.
  intros H. unfold add_var, real_welford. cbn [w_nobs w_mean w_ssqdm w_add w_remove].
  rewrite <- real_anat, <- !real_asub. rewrite <- !real_adiv by (apply anat_nonzero; [exact H|lia]). rewrite <- !real_aadd, <- !real_asub, <- !real_amul, <- !real_aadd. reflexivity.
Qed.
Lemma real_remove_var s v : (Z.of_nat (w_nobs s) <= 2 ^ 53)%Z -> real_welford (@remove_var Q RA s v) = @remove_var R DA (real_welford s) (Q2R v).
Proof.
  intros H. unfold remove_var. cbn [w_nobs real_welford]. destruct (Nat.pred (w_nobs s)) as [|n] eqn:N.
  - unfold real_welford. cbn [w_nobs w_mean w_ssqdm w_add w_remove a0 Arith_rounded Arith_double]. now rewrite real_0.
  - unfold real_welford. cbn [w_nobs w_mean w_ssqdm w_add w_remove].
    rewrite <- real_anat, <- !real_asub. rewrite <- !real_adiv by (apply anat_nonzero; [lia|lia]). rewrite <- !real_aadd, <- !real_asub, <- !real_amul, <- !real_asub. reflexivity.
Qed.
Lemma real_calc_var w s : (Z.of_nat (w_nobs s) <= 2 ^ 53)%Z -> real (@calc_var Q RA w s) = @calc_var R DA w (real_welford s).
Proof.
  intros H. unfold calc_var. cbn [real_welford w_nobs w_ssqdm]. destruct (Nat.ltb_spec 1 (w_nobs s)) as [P|P]; rewrite ?andb_true_r, ?andb_false_r; [|reflexivity].
  destruct (Nat.leb w _); [|reflexivity]. cbn [real]. rewrite <- real_anat, <- real_adiv by (apply anat_nonzero; lia).
  change (@a0 R DA) with 0. rewrite <- real_0, real_altb. change (@a0 Q RA) with 0%Q. now destruct (altb _ _).
Qed.
Lemma nobs_add_var l : forall s, (w_nobs (fold_left (if_finite (@add_var Q RA)) l s) <= w_nobs s + length l)%nat.
Proof. induction l as [|[x| | |] l IH]; intros s; cbn [fold_left if_finite length]; [lia| |specialize (IH s); lia..]. eapply Nat.le_trans; [apply IH|]. cbn. lia. Qed.
Lemma nobs_remove_var l : forall s, (w_nobs (fold_left (if_finite (@remove_var Q RA)) l s) <= w_nobs s)%nat.
Proof.
  induction l as [|[x| | |] l IH]; intros s; cbn [fold_left if_finite]; [lia| |specialize (IH s); lia..]. eapply Nat.le_trans; [apply IH|].
  unfold remove_var. destruct (Nat.pred (w_nobs s)) eqn:N; cbn [w_nobs]; lia.
Qed.
Lemma real_fold_add l : forall s, (Z.of_nat (w_nobs s + length l) <= 2 ^ 53)%Z ->
  real_welford (fold_left (if_finite (@add_var Q RA)) l s) = fold_left (if_finite (@add_var R DA)) (map real l) (real_welford s).
Proof.
  induction l as [|[x| | |] l IH]; intros s H; cbn [fold_left map if_finite real length] in *; [reflexivity| |apply IH; lia..].
  rewrite IH by (cbn [w_nobs add_var]; lia). now rewrite real_add_var by lia.
Qed.
Lemma real_fold_remove l : forall s, (Z.of_nat (w_nobs s) <= 2 ^ 53)%Z ->
  real_welford (fold_left (if_finite (@remove_var Q RA)) l s) = fold_left (if_finite (@remove_var R DA)) (map real l) (real_welford s).
Proof.
  induction l as [|[x| | |] l IH]; intros s H; cbn [fold_left map if_finite real]; [reflexivity| |apply IH; lia..].
  rewrite IH, real_remove_var by (try exact H; pose proof (nobs_remove_var [Fin x] s) as N; cbn [fold_left if_finite] in N; lia). reflexivity.
Qed.
Lemma real_vroll w l : forall rows s, (Z.of_nat (w_nobs s + length rows) <= 2 ^ 53)%Z ->
  map real (roll_loop (if_finite (@add_var Q RA)) (if_finite (@remove_var Q RA)) (@calc_var Q RA w) w l s rows) =
  roll_loop (if_finite (@add_var R DA)) (if_finite (@remove_var R DA)) (@calc_var R DA w) w (map real l) (real_welford s) rows.
Proof.
  induction rows as [|i rows IH]; intros s HN; [reflexivity|]. cbn [roll_loop map].
  set (left := match i with 0%nat => [] | S j => slice (start w j) (start w i) l end).
  set (s' := fold_left (if_finite (@add_var Q RA)) (slice i (S i) l) (fold_left (if_finite (@remove_var Q RA)) left s)).
  pose proof (nobs_add_var (slice i (S i) l) (fold_left (if_finite (@remove_var Q RA)) left s)) as A. pose proof (nobs_remove_var left s) as B.
  assert (C : (length (slice i (S i) l) <= 1)%nat) by (unfold slice; rewrite firstn_length; lia). fold s' in A. cbn [length] in HN.
  rewrite IH by lia. rewrite real_calc_var by lia. unfold s'. rewrite real_fold_add by lia. rewrite real_fold_remove by lia.
  unfold left. destruct i; rewrite ?slice_map; reflexivity.
Qed.
Lemma real_kahan_var w l : (Z.of_nat (length l) <= 2 ^ 53)%Z -> map real (@kahan_var Q RA w l) = @kahan_var R DA w (map real l).
Proof.
  intros H. unfold kahan_var, roll. rewrite real_vroll by (cbn [w_nobs]; rewrite seq_length; lia). rewrite map_length. f_equal.
  unfold real_welford. cbn [w_nobs w_mean w_ssqdm w_add w_remove a0 Arith_rounded Arith_double]. now rewrite real_0.
Qed.
(** A row of the z-score from the numerator and the variance. *)
Lemma zipw_at {A B C} (f : A -> B -> C) a b i x y : nth_error a i = Some x -> nth_error b i = Some y -> nth_error (zipw f a b) i = Some (f x y).
Proof. unfold zipw. revert a b. induction i as [|i IH]; intros [|a0 a] [|b0 b] Ha Hb; try discriminate; cbn in *; [congruence|now apply IH]. Qed.
Lemma z_row w l i n v : (Z.of_nat (length l) <= 2 ^ 53)%Z ->
  nth_error (zipw (@esub Q RA) l (@kahan_mean Q RA w l)) i = Some n -> nth_error (@kahan_var Q RA w l) i = Some v ->
  nth_error (@z_running R DA double_root w (map real l)) i = Some (@ediv R DA (real n) (@zroot R DA double_root (real v))).
Proof.
  intros H Hn Hv. unfold z_running. apply zipw_at.
  - rewrite <- real_kahan_mean by exact H. rewrite <- (real_zipw (@esub Q RA) _ real_esub). now apply map_nth_error.
  - apply map_nth_error. rewrite <- real_kahan_var by exact H. now apply map_nth_error.
Qed.
(** The square root of a variance of at least 2^-100 is not 0. *)
Lemma root_pos v : powerRZ 2 (-100) <= v -> 0 < double_root v.
Proof.
  intros H. assert (P : 0 < powerRZ 2 (-50)) by (apply powerRZ_lt; lra). unfold double_root. apply Rlt_le_trans with (powerRZ 2 (-50)); [exact P|].
  apply to_double_ge_double; [exists 1%Z, (-50)%Z; repeat split; try lia; lra|].
  replace (powerRZ 2 (-50)) with (sqrt (powerRZ 2 (-100))); [now apply sqrt_le_1_alt|].
  replace (powerRZ 2 (-100)) with (powerRZ 2 (-50) * powerRZ 2 (-50)) by (rewrite <- powerRZ_add by lra; reflexivity). apply sqrt_square. lra.
Qed.
Lemma z_missing n v : n = NaN \/ v = NaN -> @ediv R DA n (@zroot R DA double_root v) = NaN.
Proof. intros [-> | ->]; [reflexivity|destruct n; reflexivity]. Qed.
Lemma z_zero_var q : @ediv R DA (Fin (Q2R q)) (@zroot R DA double_root (Fin 0)) = @signed_inf R (@asign Q RA q).
Proof.
  cbn [zroot altb a0 Arith_double]. destruct (Rlt_dec 0 0) as [N|_]; [lra|]. rewrite root_0. unfold ediv. cbn [aeqb a0 Arith_double].
  destruct (Req_EM_T 0 0); [|lra]. now rewrite real_asign.
Qed.
Lemma z_zero_dev v : powerRZ 2 (-100) <= v -> @ediv R DA (Fin 0) (@zroot R DA double_root (Fin v)) = Fin 0.
Proof.
  intros H. pose proof (root_pos v H) as P. assert (0 < powerRZ 2 (-100)) by (apply powerRZ_lt; lra).
  cbn [zroot altb a0 Arith_double]. destruct (Rlt_dec v 0) as [N|_]; [lra|]. unfold ediv. cbn [aeqb a0 Arith_double].
  destruct (Req_EM_T (double_root v) 0) as [E|_]; [lra|]. now rewrite div_0.
Qed.
(** Exact arithmetic: no value in a window of equal numbers. *)
Lemma flat_exact w l i v : (2 <= w)%nat -> (i < length l)%nat -> last_values w l i = Some v -> constant v -> nth_error (calc_z_score w l) i = Some NaN.
Proof. intros Hw Hi Hv Hc. destruct (c42 w l i Hw Hi) as (z & E & M). rewrite Hv in M. destruct M as [[_ ->]|[N _]]; [exact E|contradiction]. Qed.
