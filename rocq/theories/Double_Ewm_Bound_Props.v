(** C121: the exponential averages and volatilities held in doubles stay within a fixed distance of the exact ones, however long the history. *)
From Coq Require Import Reals ZArith Lra Lia List String.
From Flocq.Core Require Raux Zaux.
From Verif Require Import Prelude Num Series DailyVol_Model Feat_Model Double_Model Double_Spec Double_Proofs Double_Proofs2 Double_Bet_Proofs2 Double_Z_Model Double_Ewm_Model
  Double_Bound_Spec Double_Bound_Proofs Double_Ewm_Bound_Proofs Double_Ewm_Bound_Proofs2 Double_Ewm_Bound_Proofs3.
Import ListNotations.
Local Open Scope R_scope.
Local Notation length := List.length.

(** Exponential averages of doubles of size at most M, missing values included: no row is further than M (span + 1)^2 / 2^48 from the exact average. *)
Theorem C121_average : forall span M l, 1 <= span -> (span + 1) ^ 2 <= 2 ^ 48 -> powerRZ 2 (-1000) <= M -> held_below M l ->
  forall i x y, nth_error (@ewma_double R Arith_double span l) i = Some x -> nth_error (ewm_mean span l) i = Some y -> close_to (M * (span + 1) ^ 2 / 2 ^ 48) x y.
Proof. intros span M l Hs H2 HM Hl i x y. now apply average_bound. Qed.
Print Assumptions C121_average.

(** So for the feature that subtracts a slow average from a fast one. *)
Theorem C121_difference : forall fast slow M name X c out out', 1 <= fast -> 1 <= slow -> (fast + 1) ^ 2 <= 2 ^ 48 -> (slow + 1) ^ 2 <= 2 ^ 48 -> powerRZ 2 (-1000) <= M ->
  lookup name X = Some c -> held_below M c ->
  ewma_difference_running Arith_double fast slow false name X = Ok out -> ewma_difference fast slow false name X = Ok out' ->
  forall i x y, nth_error out i = Some x -> nth_error out' i = Some y -> close_to (M * ((fast + 1) ^ 2 + (slow + 1) ^ 2) / 2 ^ 47) x y.
Proof.
  intros fast slow M name X c out out' Hf Hs Hf2 Hs2 HM Hc Hl E E' i x y Hx Hy. destruct (difference_bound fast slow M name X c i x Hf Hs Hf2 Hs2 HM Hc Hl) as (o & o' & F & F' & G).
  rewrite E in F. rewrite E' in F'. injection F as <-. injection F' as <-. destruct (G Hx) as (z & Hz & C). rewrite Hy in Hz. injection Hz as <-. exact C.
Qed.
Print Assumptions C121_difference.

(** Its sign is right wherever the exact difference is larger than that. *)
Theorem C121_sign : forall fast slow M name X c out out', 1 <= fast -> 1 <= slow -> (fast + 1) ^ 2 <= 2 ^ 48 -> (slow + 1) ^ 2 <= 2 ^ 48 -> powerRZ 2 (-1000) <= M ->
  lookup name X = Some c -> held_below M c ->
  ewma_difference_running Arith_double fast slow false name X = Ok out -> ewma_difference fast slow false name X = Ok out' ->
  forall i x y, nth_error out i = Some x -> nth_error out' i = Some (Fin y) -> M * ((fast + 1) ^ 2 + (slow + 1) ^ 2) / 2 ^ 47 < Rabs y ->
  exists v, x = Fin v /\ (0 < v <-> 0 < y) /\ (v < 0 <-> y < 0).
Proof.
  intros fast slow M name X c out out' Hf Hs Hf2 Hs2 HM Hc Hl E E' i x y Hx Hy H. pose proof (C121_difference fast slow M name X c out out' Hf Hs Hf2 Hs2 HM Hc Hl E E' i x _ Hx Hy) as C.
  destruct x as [v| | |]; try contradiction. cbn [close_to] in C. exists v. split; [reflexivity|]. set (b := M * _ / _) in *. apply abs_le in C. unfold Rabs in H. destruct (Rcase_abs y); lra.
Qed.
Print Assumptions C121_sign.

(** The exponentially weighted deviation, which get_daily_vol takes of the daily returns: for returns of size at most M without gaps, every row but the
    first has a value, and the distance d from the exact one satisfies d * exact <= M^2 (span + 1)^3 / 2^41 and d^2 <= M^2 (span + 1)^3 / 2^40. *)
Theorem C121_volatility : forall span M l, 2 <= span -> span + 1 <= 16384 -> powerRZ 2 (-500) <= M -> held_below M l -> (forall x, In x l -> exists c, x = Fin c) ->
  forall i x y, nth_error (@ewmstd_running R Arith_double double_root span l) i = Some x -> nth_error (ewm_std span l) i = Some y ->
  (i = 0%nat /\ x = NaN /\ y = NaN) \/
  exists a b, x = Fin a /\ y = Fin b /\ 0 <= a /\ 0 <= b /\ Rabs (a - b) * b <= M ^ 2 * (span + 1) ^ 3 / 2 ^ 41 /\ Rabs (a - b) ^ 2 <= M ^ 2 * (span + 1) ^ 3 / 2 ^ 40.
Proof. intros span M l Hs H14 HM Hl Hf i x y. now apply deviation_rows. Qed.
Print Assumptions C121_volatility.

(** ** Cases that meet the hypotheses *)

Lemma at_least_one e M : (e <= 0)%Z -> 1 <= M -> powerRZ 2 e <= M.
Proof. intros He H. apply Rle_trans with 1; [|exact H]. rewrite <- bpow2. now apply (Raux.bpow_le Zaux.radix2 e 0). Qed.
(** The daily span of the labelling, 100, and returns of a tenth up, then down. *)
Definition swings : list (ext R) := [Fin (to_double (1 / 10)); Fin (to_double (- (1 / 10))); Fin (to_double (1 / 10))].
Lemma swings_held : held_below 1 swings.
Proof.
  intros v Hv. assert (v = to_double (1 / 10) \/ v = to_double (- (1 / 10))) as Hv' by (destruct Hv as [H|[H|[H|[]]]]; injection H as <-; auto). split; [destruct Hv' as [-> | ->]; apply to_double_is|].
  pose proof tiny_1 as [t0 t1]. pose proof (rnd (1 / 10) 1 ltac:(apply Rabs_le; lra)) as E1. pose proof (rnd (- (1 / 10)) 1 ltac:(apply Rabs_le; lra)) as E2. unfold eps64 in *. apply Rabs_le. destruct Hv' as [-> | ->]; lra.
Qed.
Example C121_volatility_case : forall i x y, nth_error (@ewmstd_running R Arith_double double_root 100 swings) (S i) = Some x -> nth_error (ewm_std 100 swings) (S i) = Some y ->
  exists a b, x = Fin a /\ y = Fin b /\ Rabs (a - b) ^ 2 <= 1 / 1000000.
Proof.
  intros i x y Hx Hy. destruct (C121_volatility 100 1 swings ltac:(lra) ltac:(lra) (at_least_one (-500) 1 ltac:(lia) (Rle_refl 1)) swings_held) with (i := S i) (x := x) (y := y) as [(H & _)|(a & b & -> & -> & _ & _ & _ & H)]; auto.
  - intros z Hz. destruct Hz as [<-|[<-|[<-|[]]]]; eexists; reflexivity.
  - discriminate.
  - exists a, b. split; [reflexivity|]. split; [reflexivity|]. eapply Rle_trans; [exact H|]. rewrite (pow_IZR 2 40). change (IZR (2 ^ Z.of_nat 40)) with 1099511627776. lra.
Qed.
Definition swings_frame : frame := {| f_index := [1; 2; 3]%Z; f_cols := [("close"%string, swings)] |}.
Example C121_difference_case : exists out out', ewma_difference_running Arith_double 3 9 false "close" swings_frame = Ok out /\ ewma_difference 3 9 false "close" swings_frame = Ok out' /\
  forall i x y, nth_error out i = Some x -> nth_error out' i = Some y -> close_to (1 * ((3 + 1) ^ 2 + (9 + 1) ^ 2) / 2 ^ 47) x y.
Proof.
  eexists _, _. split; [reflexivity|]. split; [reflexivity|]. apply (C121_difference 3 9 1 "close" swings_frame swings); try reflexivity; try lra; [apply at_least_one; [lia|lra]|apply swings_held].
Qed.
