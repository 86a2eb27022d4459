(** Error bounds for sums in double precision. *)
From Coq Require Import Reals ZArith Lia Lra List Permutation Psatz.
From Flocq Require Import Core.
From Verif Require Import Double_Model Double_Spec Double_Proofs Double_Proofs2.
Import ListNotations.
Local Open Scope R_scope.

Fixpoint rsum (l : list R) : R := match l with [] => 0 | x :: r => x + rsum r end.
Lemma rsum_app a b : rsum (a ++ b) = rsum a + rsum b.
Proof. induction a as [|x a IH]; cbn; [|rewrite IH]; ring. Qed.
Lemma rsum_perm a b : Permutation a b -> rsum a = rsum b.
Proof. induction 1; cbn; lra. Qed.
Lemma rsum_nonneg l : Forall (Rle 0) l -> 0 <= rsum l.
Proof. induction 1; cbn; lra. Qed.

(** ** Relative errors of positive numbers *)
Definition rel (d x y : R) : Prop := 0 < y /\ y * (1 - d) <= x <= y * (1 + d).
Lemma rel_within d x y : rel d x y -> within_rel d x y.
Proof. intros (P & L & U). unfold within_rel. rewrite (Rabs_pos_eq y) by lra. apply Rabs_le. lra. Qed.
Lemma rel_refl x : 0 < x -> rel 0 x x. Proof. intros. split; lra. Qed.
Lemma rel_weaken d d' x y : d <= d' -> rel d x y -> rel d' x y.
Proof. intros H (P & L & U). split; auto. split; nra. Qed.
Lemma rel_pos d x y : d < 1 -> rel d x y -> 0 < x.
Proof. intros H (P & L & U). nra. Qed.
Lemma rel_trans d e x y z : 0 <= d < 1 -> 0 <= e < 1 -> rel d x y -> rel e y z -> rel (d + e + d * e) x z.
Proof.
  intros Hd He (Py & L & U) (Pz & L' & U'). split; auto. split.
  - apply Rle_trans with (z * (1 - e) * (1 - d)); [|apply Rle_trans with (y * (1 - d)); [apply Rmult_le_compat_r; lra|auto]].
    assert (0 <= z * (d * e)) by (apply Rmult_le_pos; [lra|nra]). nra.
  - apply Rle_trans with (z * (1 + e) * (1 + d)); [apply Rle_trans with (y * (1 + d)); [auto|apply Rmult_le_compat_r; lra]|]. nra.
Qed.
Lemma rel_div d e x y x' y' : 0 <= d <= / 8 -> 0 <= e <= / 8 -> rel d x y -> rel e x' y' -> rel (d + e + 2 * e * (d + e)) (x / x') (y / y').
Proof.
  intros Hd He (Py & L & U) (Py' & L' & U').
  assert (Px' : 0 < x') by nra. assert (Pq : 0 < y / y') by (apply Rdiv_lt_0_compat; lra). split; auto.
  assert (Q : x / x' = (y / y') * ((x / y) * (y' / x'))) by (field; repeat split; lra).
  rewrite Q. clear Q. 
  assert (A : 1 - d <= x / y <= 1 + d).
  { split; [apply Rmult_le_reg_r with y|apply Rmult_le_reg_r with y]; try lra; unfold Rdiv; rewrite Rmult_assoc, Rinv_l by lra; lra. }
  assert (B : 1 - e <= y' / x' <= 1 + e + 2 * e * e).
  { split; apply Rmult_le_reg_r with x'; try lra; unfold Rdiv; rewrite Rmult_assoc, Rinv_l by lra.
    - apply Rle_trans with ((1 - e) * (y' * (1 + e))); [apply Rmult_le_compat_l; lra|]. nra.
    - apply Rle_trans with ((1 + e + 2 * e * e) * (y' * (1 - e))); [|apply Rmult_le_compat_l; [nra|lra]].
      replace ((1 + e + 2 * e * e) * (y' * (1 - e))) with (y' * (1 + e * e * (1 - 2 * e))) by ring. assert (0 <= e * e * (1 - 2 * e)) by (apply Rmult_le_pos; nra). nra. }
  set (a := x / y) in *. set (b := y' / x') in *.
  assert (C : (1 - d) * (1 - e) <= a * b <= (1 + d) * (1 + e + 2 * e * e)).
  { split; apply Rmult_le_compat; lra. }
  assert (0 <= d * e) by nra. assert (0 <= e * e) by nra. assert (0 <= d * (e * e) <= / 8 * (e * e)) by (split; [apply Rmult_le_pos|apply Rmult_le_compat_r]; lra).
  split; apply Rmult_le_compat_l; nra.
Qed.
Lemma rel_sum d a b : a <> [] -> Forall2 (rel d) a b -> rel d (rsum a) (rsum b).
Proof.
  intros Hne H. destruct H as [|x y a b Hx H]; [congruence|]. clear Hne. revert x y Hx.
  induction H as [|x' y' a b Hx' H IH]; intros x y Hx; cbn; [now rewrite !Rplus_0_r|].
  specialize (IH _ _ Hx'). cbn in IH. destruct Hx as (P & L & U), IH as (P' & L' & U'). split; [|split]; lra.
Qed.

(** ** Rounding errors *)
Lemma nearest_error x s : (exists a b, is_double a /\ is_double b /\ x = a + b) -> nearest x s -> Rabs (s - x) <= eps64 * Rabs x.
Proof.
  intros (a & b & Da & Db & ->) [_ H]. eapply Rle_trans; [apply (H (to_double (a + b))), to_double_is|]. now apply error_sum.
Qed.

Lemma added_nonempty l s : added l s -> (1 <= length l)%nat.
Proof.
  induction 1; cbn; auto. rewrite (Permutation_length H), app_length. lia.
Qed.
Lemma Forall_perm {A} (P : A -> Prop) a b : Permutation a b -> Forall P a -> Forall P b.
Proof. intros HP H. rewrite Forall_forall in *. intros x Hx. apply H. eapply Permutation_in; [symmetry; exact HP|exact Hx]. Qed.

Lemma added_bounds l s : added l s -> Forall is_double l -> Forall (Rle 0) l ->
  is_double s /\ rsum l * (1 - eps64) ^ (length l - 1) <= s <= rsum l * (1 + eps64) ^ (length l - 1).
Proof.
  pose proof eps64_pos as HE.
  induction 1 as [x|l l1 l2 a b s HP H1 IH1 H2 IH2 HN]; intros D N.
  - inversion D; subst. cbn. split; auto. lra.
  - apply (Forall_perm _ _ _ HP) in D, N. apply Forall_app in D, N. destruct D as [D1 D2], N as [N1 N2].
    destruct (IH1 D1 N1) as (Da & La & Ua), (IH2 D2 N2) as (Db & Lb & Ub). split; [apply HN|].
    rewrite (rsum_perm _ _ HP), rsum_app, (Permutation_length HP), app_length.
    pose proof (added_nonempty _ _ H1) as G1. pose proof (added_nonempty _ _ H2) as G2.
    pose proof (rsum_nonneg _ N1) as S1. pose proof (rsum_nonneg _ N2) as S2.
    pose proof (nearest_error (a + b) s (ex_intro _ a (ex_intro _ b (conj Da (conj Db eq_refl)))) HN) as E.
    set (n1 := length l1) in *. set (n2 := length l2) in *.
    assert (low : forall k n, (k < n)%nat -> 0 <= (1 - eps64) ^ n <= (1 - eps64) * (1 - eps64) ^ k).
    { intros k n Hk. split; [apply pow_le; lra|]. change ((1 - eps64) * (1 - eps64) ^ k) with ((1 - eps64) ^ S k).
      replace n with (S k + (n - S k))%nat by lia. rewrite pow_add. rewrite <- (Rmult_1_r ((1 - eps64) ^ S k)) at 2.
      apply Rmult_le_compat_l; [apply pow_le; lra|]. apply Rle_trans with (1 ^ (n - S k)); [apply pow_incr; lra|rewrite pow1; lra]. }
    assert (up : forall k n, (k < n)%nat -> (1 + eps64) * (1 + eps64) ^ k <= (1 + eps64) ^ n).
    { intros k n Hk. change ((1 + eps64) * (1 + eps64) ^ k) with ((1 + eps64) ^ S k). apply Rle_pow; [lra|lia]. }
    assert (0 <= a) as Pa by (eapply Rle_trans; [|exact La]; apply Rmult_le_pos; auto; apply pow_le; lra).
    assert (0 <= b) as Pb by (eapply Rle_trans; [|exact Lb]; apply Rmult_le_pos; auto; apply pow_le; lra).
    rewrite (Rabs_pos_eq (a + b)) in E by lra. apply Rabs_le_inv in E.
    destruct (low (n1 - 1)%nat (n1 + n2 - 1)%nat ltac:(lia)) as [_ Lo1].
    destruct (low (n2 - 1)%nat (n1 + n2 - 1)%nat ltac:(lia)) as [_ Lo2].
    pose proof (up (n1 - 1)%nat (n1 + n2 - 1)%nat ltac:(lia)) as Up1.
    pose proof (up (n2 - 1)%nat (n1 + n2 - 1)%nat ltac:(lia)) as Up2.
    split.
    + apply Rle_trans with ((1 - eps64) * (a + b)); [|lra].
      apply Rle_trans with ((1 - eps64) * (rsum l1 * (1 - eps64) ^ (n1 - 1) + rsum l2 * (1 - eps64) ^ (n2 - 1))); [|apply Rmult_le_compat_l; lra].
      apply (Rmult_le_compat_l (rsum l1)) in Lo1; auto. apply (Rmult_le_compat_l (rsum l2)) in Lo2; auto. lra.
    + apply Rle_trans with ((1 + eps64) * (a + b)); [lra|].
      apply Rle_trans with ((1 + eps64) * (rsum l1 * (1 + eps64) ^ (n1 - 1) + rsum l2 * (1 + eps64) ^ (n2 - 1))); [apply Rmult_le_compat_l; lra|].
      apply (Rmult_le_compat_l (rsum l1)) in Up1; auto. apply (Rmult_le_compat_l (rsum l2)) in Up2; auto. lra.
Qed.

Lemma pow_low e n : 0 <= e <= 1 -> 1 - INR n * e <= (1 - e) ^ n.
Proof.
  intros He. induction n as [|n IH]; [cbn; lra|]. rewrite S_INR. cbn [pow].
  destruct (Rle_dec (1 - INR n * e) 0) as [Hn|Hn].
  - pose proof (pos_INR n). apply Rle_trans with 0; [lra|]. apply Rmult_le_pos; [lra|apply pow_le; lra].
  - apply Rle_trans with ((1 - e) * (1 - INR n * e)); [|apply Rmult_le_compat_l; lra].
    pose proof (pos_INR n). assert (0 <= INR n * (e * e)) by (apply Rmult_le_pos; nra). nra.
Qed.
Lemma pow_up e n : 0 <= e -> INR n * e <= / 2 -> (1 + e) ^ n <= 1 + 2 * (INR n * e).
Proof.
  intros He Hn.
  assert (H : forall k, INR k * e <= / 2 -> (1 + e) ^ k * (1 - INR k * e) <= 1).
  { induction k as [|k IH]; intros Hk; [cbn; lra|]. rewrite S_INR in *. cbn [pow].
    assert (INR k * e <= / 2) as Hk' by lra. specialize (IH Hk').
    assert (0 <= (1 + e) ^ k) by (apply pow_le; lra).
    apply Rle_trans with ((1 + e) ^ k * (1 - INR k * e)); auto.
    replace ((1 + e) * (1 + e) ^ k * (1 - (INR k + 1) * e)) with ((1 + e) ^ k * ((1 + e) * (1 - (INR k + 1) * e))) by ring.
    apply Rmult_le_compat_l; auto. pose proof (pos_INR k). assert (0 <= (INR k + 1) * (e * e)) by (apply Rmult_le_pos; nra). nra. }
  specialize (H n Hn). pose proof (pos_INR n). set (k := INR n * e) in *. set (p := (1 + e) ^ n) in *.
  assert (0 <= k) by (unfold k; nra).
  destruct (Rle_dec p (1 + 2 * k)) as [|G]; auto. exfalso. assert ((1 + 2 * k) * (1 - k) < p * (1 - k)) by (apply Rmult_lt_compat_r; lra). nra.
Qed.
Lemma added_rel l s : added l s -> Forall is_double l -> Forall (Rle 0) l -> 0 < rsum l -> INR (length l) * eps64 <= / 2 ->
  is_double s /\ rel (2 * (INR (length l) * eps64)) s (rsum l).
Proof.
  intros H D N P Hn. destruct (added_bounds l s H D N) as (Ds & L & U). split; auto. split; auto.
  pose proof (added_nonempty _ _ H) as G. pose proof eps64_pos as HE.
  assert (INR (length l - 1) <= INR (length l)) as HI by (apply le_INR; lia). pose proof (pos_INR (length l - 1)) as HP.
  assert (INR (length l - 1) * eps64 <= INR (length l) * eps64) as HI' by (apply Rmult_le_compat_r; lra).
  pose proof (pow_low eps64 (length l - 1) ltac:(lra)) as A.
  pose proof (pow_up eps64 (length l - 1) ltac:(lra) ltac:(lra)) as B. 
  assert (0 <= INR (length l - 1) * eps64) by (apply Rmult_le_pos; lra).
  split.
  - eapply Rle_trans; [|exact L]. apply Rmult_le_compat_l; lra.
  - eapply Rle_trans; [exact U|]. apply Rmult_le_compat_l; lra.
Qed.
