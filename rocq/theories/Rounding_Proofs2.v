(** Sizes given as fractions: how the rounded product relates to the exact one. *)
From Coq Require Import Reals ZArith QArith Qreals Lia Lra List.
From Flocq Require Import Core.
From Verif Require Import Num QSum QSumFacts Bag_Model Bag_Spec Bag_Proofs3 Rounding_Model Double_Model Double_Spec Double_Proofs Double_Boot_Proofs Double_Boot_Proofs3 Rounding_Proofs.
Local Open Scope R_scope.

Lemma Rle_Q2R_iff p q : Q2R p <= Q2R q <-> (p <= q)%Q.
Proof. split; [apply Rle_Qle|apply Qle_Rle]. Qed.
Lemma Rlt_Q2R_iff p q : Q2R p < Q2R q <-> (p < q)%Q.
Proof. split; [apply Rlt_Qlt|apply Qlt_Rlt]. Qed.

(** The product of a fraction and [n], as a real number. *)
Lemma product_R q n : Q2R (rounded (q * Qn n)) = to_double (Q2R q * INR n).
Proof. now rewrite rounded_double, Q2R_mult, Q2R_Qn. Qed.
Lemma floor_R q k : floor q k <-> INR k <= Q2R q < INR k + 1.
Proof.
  unfold floor. rewrite <- Rle_Q2R_iff, <- Rlt_Q2R_iff, Q2R_plus, !Q2R_Qn.
  assert (Q2R 1 = 1) as -> by (unfold Q2R; cbn; lra). reflexivity.
Qed.
Lemma sample_size_R q n k : sample_size (SFloat (Fin q)) n k <-> (1 <= k <= n)%nat /\ INR k <= to_double (Q2R q * INR n) < INR k + 1.
Proof. unfold sample_size. rewrite floor_R, product_R. reflexivity. Qed.

Lemma is_double_nat k : (Z.of_nat k <= 2 ^ 52)%Z -> is_double (INR k).
Proof. intros H. rewrite <- (Rmult_1_r (INR k)). change 1 with (bpow radix2 0). apply is_double_scaled; [exact H|lia]. Qed.
Lemma half_double : is_double (/ 2).
Proof. change (/ 2) with (bpow radix2 (-1)). rewrite <- (Rmult_1_l (bpow radix2 (-1))). change 1 with (INR 1). apply is_double_scaled; lia. Qed.
Lemma big_enough x : 1 <= to_double x -> / 2 < x.
Proof. intros H. destruct (Rlt_dec (/ 2) x) as [|C]; auto. exfalso. assert (to_double x <= / 2) by (apply to_double_le_double; [apply half_double|lra]). lra. Qed.
Lemma normal_half x : / 2 <= x -> bpow radix2 (-1022) <= x.
Proof. intros H. apply Rle_trans with (bpow radix2 (-1)); [apply bpow_le; lia|]. change (bpow radix2 (-1)) with (/ 2). exact H. Qed.

(** (a) never further than one rounding from the exact product *)
Lemma sample_size_close q n k : sample_size (SFloat (Fin q)) n k ->
  INR k <= Q2R q * INR n * (1 + / 2 ^ 53) /\ Q2R q * INR n * (1 - / 2 ^ 53) < INR k + 1.
Proof.
  intros H. apply sample_size_R in H. destruct H as (Hk & L & U). assert (1 <= INR k) by (change 1 with (INR 1); apply le_INR; lia).
  set (x := Q2R q * INR n) in *. pose proof (big_enough x ltac:(lra)) as Bx.
  destruct (double_rel x (normal_half x ltac:(lra))) as (_ & D1 & D2). replace (/ 2 ^ 53) with eps64; [lra|].
  unfold eps64. rewrite (pow_IZR 2 53). reflexivity.
Qed.

(** (b) a fraction that stands for [K] rows gives [K] or one less *)
Lemma nearest_rel f q : bpow radix2 (-1022) <= f -> nearest f q -> rel eps64 q f.
Proof.
  intros Hf [_ H]. destruct (double_rel f Hf) as (P & D1 & D2). split; [exact P|].
  specialize (H (to_double f) (to_double_is f)).
  assert (Rabs (to_double f - f) <= eps64 * f) by (apply Rabs_le; lra).
  assert (Rabs (q - f) <= eps64 * f) as A by lra. apply Rabs_le_inv in A. lra.
Qed.
Lemma fraction_product f q n K : (0 < n)%nat -> (Z.of_nat n <= 2 ^ 50)%Z -> (1 <= K <= n)%nat -> (f * Qn n == Qn K)%Q -> nearest (Q2R f) (Q2R q) ->
  INR K - / 2 <= to_double (Q2R q * INR n) <= INR K + / 2.
Proof.
  intros Hn Hn' HK Ef Hq. apply Qeq_eqR in Ef. rewrite Q2R_mult, !Q2R_Qn in Ef.
  assert (1 <= INR n <= 1125899906842624) as [N1 N2] by (split; [change 1 with (INR 1); apply le_INR; lia|rewrite INR_IZR_INZ; apply IZR_le; lia]).
  assert (1 <= INR K <= 1125899906842624) as [K1 K2] by (split; [change 1 with (INR 1); apply le_INR; lia|rewrite INR_IZR_INZ; apply IZR_le; lia]).
  assert (Lf : / 1125899906842624 <= Q2R f).
  { apply Rmult_le_reg_r with (INR n); [lra|]. rewrite Ef. apply Rle_trans with 1; [|lra].
    apply Rle_trans with (/ 1125899906842624 * 1125899906842624); [apply Rmult_le_compat_l; lra|lra]. }
  assert (rel eps64 (Q2R q) (Q2R f)) as (_ & A1 & A2).
  { apply nearest_rel; auto. apply Rle_trans with (bpow radix2 (-50)); [apply bpow_le; lia|exact Lf]. }
  set (x := Q2R q * INR n) in *.
  assert (X1 : INR K * (1 - eps64) <= x).
  { unfold x. rewrite <- Ef. replace (Q2R f * INR n * (1 - eps64)) with (Q2R f * (1 - eps64) * INR n) by ring. apply Rmult_le_compat_r; lra. }
  assert (X2 : x <= INR K * (1 + eps64)).
  { unfold x. rewrite <- Ef. replace (Q2R f * INR n * (1 + eps64)) with (Q2R f * (1 + eps64) * INR n) by ring. apply Rmult_le_compat_r; lra. }
  assert (/ 2 <= x) as Bx by (unfold eps64 in *; lra).
  destruct (double_rel x (normal_half x Bx)) as (_ & D1 & D2). unfold eps64 in *. lra.
Qed.
Lemma sample_size_fraction f q n K k : (Z.of_nat n <= 2 ^ 50)%Z -> (1 <= K <= n)%nat -> (f * Qn n == Qn K)%Q -> nearest (Q2R f) (Q2R q) ->
  sample_size (SFloat (Fin q)) n k -> k = K \/ S k = K.
Proof.
  intros Hn HK Ef Hq H. destruct (fraction_product f q n K ltac:(lia) Hn HK Ef Hq) as [L U].
  apply sample_size_R in H. destruct H as (Hk & A & B).
  assert (INR k < INR (S K)) as C by (rewrite S_INR; lra). apply INR_lt in C.
  assert (INR K < INR (S (S k))) as D by (rewrite !S_INR; lra). apply INR_lt in D. lia.
Qed.
Lemma sample_size_exists f q n K : (Z.of_nat n <= 2 ^ 50)%Z -> (2 <= K <= n)%nat -> (f * Qn n == Qn K)%Q -> nearest (Q2R f) (Q2R q) ->
  exists k, sample_size (SFloat (Fin q)) n k.
Proof.
  intros Hn HK Ef Hq. destruct (fraction_product f q n K ltac:(lia) Hn ltac:(lia) Ef Hq) as [L U].
  destruct (Rle_lt_dec (INR K) (to_double (Q2R q * INR n))) as [C|C].
  - exists K. apply sample_size_R. split; [lia|]. lra.
  - destruct K as [|K']; [lia|]. exists K'. apply sample_size_R. rewrite S_INR in *. split; [lia|]. lra.
Qed.

(** (c) one *)
Lemma times_one n : (Z.of_nat n <= 2 ^ 52)%Z -> to_double (Q2R 1 * INR n) = INR n.
Proof. intros H. assert (Q2R 1 = 1) as -> by (unfold Q2R; cbn; lra). rewrite Rmult_1_l. apply to_double_id. now apply is_double_nat. Qed.
Lemma sample_size_one n : (0 < n)%nat -> (Z.of_nat n <= 2 ^ 52)%Z -> sample_size (SFloat (Fin 1%Q)) n n.
Proof. intros H0 H. apply sample_size_R. rewrite times_one by exact H. split; [lia|lra]. Qed.
Lemma feature_size_one n : (0 < n)%nat -> (Z.of_nat n <= 2 ^ 52)%Z -> feature_size (SFloat (Fin 1%Q)) n n.
Proof.
  intros H0 H. unfold feature_size. rewrite <- Rlt_Q2R_iff, <- Rle_Q2R_iff, product_R, times_one, Q2R_Qn by exact H.
  assert (0 < INR n) by (apply lt_0_INR; lia). assert (Q2R 0 = 0) as -> by (unfold Q2R; cbn; lra).
  split; [lra|]. exists n. split; [|lia]. apply floor_R. rewrite product_R, times_one by exact H. lra.
Qed.

(** (d) larger fractions *)
Lemma sample_size_monotone q q' n k k' : (q <= q')%Q -> sample_size (SFloat (Fin q)) n k -> sample_size (SFloat (Fin q')) n k' -> (k <= k')%nat.
Proof.
  intros Hq H H'. apply sample_size_R in H, H'. destruct H as (_ & L & _). destruct H' as (_ & _ & U).
  apply Rle_Q2R_iff in Hq. assert (to_double (Q2R q * INR n) <= to_double (Q2R q' * INR n)) by (apply to_double_le, Rmult_le_compat_r; [apply pos_INR|exact Hq]).
  assert (INR k < INR (S k')) as C by (rewrite S_INR; lra). apply INR_lt in C. lia.
Qed.

(** (e) the features: a fraction is accepted exactly if it is above 0 and at most 1 *)
Lemma next_after_nat n : (0 < n)%nat -> (Z.of_nat n < 2 ^ 52)%Z -> exists z, is_double z /\ INR n < z <= INR n * (1 + / 4503599627370496).
Proof.
  intros H0 H. set (N := Z.of_nat n) in *. set (l := Z.log2 N). pose proof (Z.log2_spec N ltac:(lia)) as [L U]. fold l in L, U.
  assert (0 <= l <= 51)%Z as Hl by (split; [apply Z.log2_nonneg|]; unfold l; assert (Z.log2 N < 52)%Z by (apply Z.log2_lt_pow2; lia); lia).
  exists (INR n + bpow radix2 (l - 52)).
  assert (Pb : 0 < bpow radix2 (l - 52)) by apply bpow_gt_0.
  split.
  - exists (N * 2 ^ (52 - l) + 1)%Z, (l - 52)%Z. split; [|split; [|lia]].
    + rewrite <- bpow2, plus_IZR, mult_IZR, pow2_IZR by lia. rewrite Rmult_plus_distr_r, Rmult_assoc, <- bpow_plus.
      replace (52 - l + (l - 52))%Z with 0%Z by lia. cbn [bpow]. rewrite INR_IZR_INZ. fold N. lra.
    + assert (2 ^ (52 - l) * 2 ^ Z.succ l = 2 ^ 53)%Z as E by (rewrite <- Z.pow_add_r by lia; f_equal; lia).
      assert (2 <= 2 ^ (52 - l))%Z by (change 2%Z with (2 ^ 1)%Z at 1; apply Z.pow_le_mono_r; lia).
      assert (N * 2 ^ (52 - l) + 2 ^ (52 - l) <= 2 ^ 53)%Z by nia. lia.
  - split; [lra|]. rewrite Rmult_plus_distr_l, Rmult_1_r. apply Rplus_le_compat_l.
    unfold Z.sub. rewrite bpow_plus. change (bpow radix2 (-52)) with (/ 4503599627370496). apply Rmult_le_compat_r; [lra|].
    rewrite <- pow2_IZR by lia. rewrite INR_IZR_INZ. apply IZR_le. exact L.
Qed.
Lemma above_one q : is_double q -> 1 < q -> 1 + / 4503599627370496 <= q.
Proof.
  intros (m & e & -> & Hm & He) H. rewrite <- bpow2 in *.
  destruct (Z_le_gt_dec e (-53)) as [C|C].
  - exfalso. assert (IZR m * bpow radix2 e < 1); [|lra]. apply Rle_lt_trans with (IZR (Z.abs m) * bpow radix2 e).
    + apply Rmult_le_compat_r; [left; apply bpow_gt_0|]. apply IZR_le. lia.
    + apply Rlt_le_trans with (bpow radix2 53 * bpow radix2 (-53)); [|rewrite <- bpow_plus; cbn; lra].
      apply Rlt_le_trans with (bpow radix2 53 * bpow radix2 e).
      * apply Rmult_lt_compat_r; [apply bpow_gt_0|]. rewrite <- pow2_IZR by lia. now apply IZR_lt.
      * apply Rmult_le_compat_l; [left; apply bpow_gt_0|]. apply bpow_le. lia.
  - (* a multiple of 2^-52 *)
    assert (E : IZR m * bpow radix2 e = IZR (m * 2 ^ (e + 52)) * bpow radix2 (-52)).
    { rewrite mult_IZR, pow2_IZR by lia. rewrite Rmult_assoc, <- bpow_plus. do 2 f_equal. lia. }
    rewrite E in *. set (M := (m * 2 ^ (e + 52))%Z) in *. change (bpow radix2 (-52)) with (/ 4503599627370496) in *.
    assert (4503599627370496 < IZR M) as F by lra. apply lt_IZR in F. assert (4503599627370497 <= IZR M) by (apply IZR_le; lia). lra.
Qed.
Lemma feature_size_accepts q n : is_double (Q2R q) -> (0 < n)%nat -> (Z.of_nat n < 2 ^ 52)%Z ->
  ((exists k, feature_size (SFloat (Fin q)) n k) <-> (0 < q <= 1)%Q).
Proof.
  intros Dq H0 H. assert (P : 1 <= INR n) by (change 1 with (INR 1); apply le_INR; lia).
  assert (Z0 : Q2R 0 = 0) by (unfold Q2R; cbn; lra). assert (Z1 : Q2R 1 = 1) by (unfold Q2R; cbn; lra).
  assert (Eq : (0 < rounded (q * Qn n) /\ rounded (q * Qn n) <= Qn n)%Q <-> (0 < q <= 1)%Q).
  { rewrite <- !Rlt_Q2R_iff, <- !Rle_Q2R_iff, product_R, Q2R_Qn, Z0, Z1. set (r := Q2R q) in *. split.
    - intros [A B]. split.
      + destruct (Rlt_dec 0 r) as [|C]; auto. exfalso.
        assert (r * INR n <= 0) by (apply Rle_trans with (0 * INR n); [apply Rmult_le_compat_r|]; lra).
        assert (to_double (r * INR n) <= 0); [|lra]. apply to_double_le_double; auto. apply (is_double_nat 0). cbn. lia.
      + destruct (Rle_dec r 1) as [|C]; auto. exfalso. pose proof (above_one r Dq ltac:(lra)) as G.
        destruct (next_after_nat n H0 H) as (z & Dz & Lz & Uz).
        assert (z <= to_double (r * INR n)); [|lra]. apply to_double_ge_double; auto.
        apply Rle_trans with (1 := Uz). rewrite Rmult_comm. apply Rmult_le_compat_r; lra.
    - intros [A B]. split.
      + apply Rlt_le_trans with r; auto. apply to_double_ge_double; auto. rewrite <- (Rmult_1_r r) at 1. apply Rmult_le_compat_l; lra.
      + apply to_double_le_double; [apply is_double_nat; lia|]. rewrite <- (Rmult_1_l (INR n)) at 2. apply Rmult_le_compat_r; lra. }
  unfold feature_size. split.
  - intros (k & A & _). now apply Eq.
  - intros A. apply Eq in A. destruct (floor_exists (rounded (q * Qn n))) as (f & Hf & _); [apply Qlt_le_weak, A|].
    exists (Nat.max 1 f). split; [exact A|]. now exists f.
Qed.
