(** Exponential averages forget the early history. *)
From Coq Require Import Reals Lra Lia ZArith List String.
From Verif Require Import Prelude PreludeFacts Num Series DailyVol_Model Feat_Model Feat_Spec Feat_Proofs Feat_Proofs8 Direction_Proofs3.
Import ListNotations.
Local Notation length := List.length.
Local Open Scope nat_scope.

Lemma ewma_quot span c i : ewma span c i = (psum (decay span) c i / wsum (decay span) i)%R.
Proof. reflexivity. Qed.
Lemma row_app_l (P T : list R) i : i < length P -> row (P ++ T) i = row P i.
Proof. intros H. unfold row. now apply app_nth1. Qed.
Lemma row_app_r (P T : list R) i : row (P ++ T) (length P + i) = row T i.
Proof. unfold row. rewrite app_nth2 by lia. f_equal. lia. Qed.
Lemma wsum_add d k i : wsum d (S k + i) = (wsum d i + d ^ (i + 1) * wsum d k)%R.
Proof. induction i as [|i IH]; [rewrite Nat.add_0_r, wsum_S; unfold wsum at 2; cbn; lra|]. rewrite Nat.add_succ_r, !wsum_S, IH. cbn [Nat.add pow]. lra. Qed.
Lemma psum_prefix d (P T : list R) k : k < length P -> psum d (P ++ T) k = psum d P k.
Proof. induction k as [|k IH]; intros H; [unfold psum; cbn; rewrite row_app_l by exact H; reflexivity|]. rewrite !psum_S, IH, row_app_l by lia. reflexivity. Qed.
Lemma psum_add d (P T : list R) k i : length P = S k -> psum d (P ++ T) (S k + i) = (psum d T i + d ^ (i + 1) * psum d P k)%R.
Proof.
  intros L. induction i as [|i IH].
  - rewrite (Nat.add_0_r (S k)), psum_S. pose proof (row_app_r P T 0) as E. rewrite L, Nat.add_0_r in E. rewrite E, psum_prefix by lia. replace (psum d T 0) with (row T 0) by (unfold psum; cbn; lra). cbn [Nat.add pow]. lra.
  - rewrite Nat.add_succ_r, !psum_S, IH. pose proof (row_app_r P T (S i)) as E. rewrite L, Nat.add_succ_r in E. rewrite E. cbn [Nat.add pow]. lra.
Qed.
Lemma wsum_geo d i : ((1 - d) * wsum d i = 1 - d ^ (i + 1))%R.
Proof. induction i as [|i IH]; [unfold wsum; cbn; lra|]. rewrite wsum_S. replace (S i + 1) with (S (i + 1)) by lia. cbn [pow]. replace ((1 - d) * (1 + d * wsum d i))%R with (1 - d + d * ((1 - d) * wsum d i))%R by ring. rewrite IH. ring. Qed.
Lemma share d (k : nat) i : (0 <= d < 1)%R -> (0 <= d ^ (i + 1) * wsum d k / (wsum d i + d ^ (i + 1) * wsum d k) <= d ^ (i + 1))%R.
Proof.
  intros Hd. pose proof (wsum_pos d i ltac:(lra)) as W. pose proof (wsum_pos d k ltac:(lra)) as V. pose proof (wsum_geo d i) as G. pose proof (wsum_geo d k) as G'.
  assert (K : (0 <= d ^ (i + 1))%R) by (apply pow_le; lra). assert (K1 : (d ^ (i + 1) <= 1)%R) by (rewrite <- (pow1 (i + 1)); apply pow_incr; lra). assert (K' : (0 <= d ^ (k + 1))%R) by (apply pow_le; lra).
  set (q := (d ^ (i + 1))%R) in *. assert (Q : (0 <= q * wsum d k)%R) by (apply Rmult_le_pos; lra). split; [apply Rmult_le_pos; [exact Q|left; apply Rinv_0_lt_compat; lra]|].
  apply (Rmult_le_reg_r (wsum d i + q * wsum d k)); [lra|]. unfold Rdiv. rewrite Rmult_assoc, Rinv_l, Rmult_1_r by lra. apply Rmult_le_compat_l; [exact K|].
  apply (Rmult_le_reg_l (1 - d)); [lra|]. rewrite Rmult_plus_distr_l, G. replace ((1 - d) * (q * wsum d k))%R with (q * ((1 - d) * wsum d k))%R by ring. rewrite G'.
  assert (0 <= (1 - q) * d ^ (k + 1))%R by (apply Rmult_le_pos; lra). lra.
Qed.
Lemma ewma_late span (P T : list R) i lo hi : (1 <= span)%R -> i < length T -> Forall (fun x => lo <= x <= hi)%R (P ++ T) ->
  (Rabs (ewma span (P ++ T) (length P + i) - ewma span T i) <= decay span ^ (i + 1) * (hi - lo))%R.
Proof.
  intros Hs Hi F. pose proof (decay_range span Hs) as Hd. apply Forall_app in F. destruct F as [FP FT]. pose proof (ewma_bounds span T i lo hi Hs Hi FT) as BT.
  destruct (length P) as [|k] eqn:L.
  - apply length_zero_iff_nil in L. subst P. cbn [app Nat.add]. replace (_ - _)%R with 0%R by ring. rewrite Rabs_R0. apply Rmult_le_pos; [apply pow_le; lra|lra].
  - pose proof (ewma_bounds span P k lo hi Hs ltac:(lia) FP) as BP. pose proof (share (decay span) k i ltac:(lra)) as SH. rewrite !ewma_quot in *. rewrite (psum_add _ P T k i L), wsum_add.
    set (d := decay span) in *. set (q := (d ^ (i + 1))%R) in *. pose proof (wsum_pos d i ltac:(lra)) as W. pose proof (wsum_pos d k ltac:(lra)) as V. assert (K : (0 <= q)%R) by (apply pow_le; lra). assert (Q : (0 <= q * wsum d k)%R) by (apply Rmult_le_pos; lra).
    replace ((psum d T i + q * psum d P k) / (wsum d i + q * wsum d k) - psum d T i / wsum d i)%R with (q * wsum d k / (wsum d i + q * wsum d k) * (psum d P k / wsum d k - psum d T i / wsum d i))%R by (field; lra).
    rewrite Rabs_mult, (Rabs_pos_eq (q * wsum d k / _)) by apply SH. apply Rmult_le_compat; [apply SH|apply Rabs_pos|apply SH|apply Rabs_le; lra].
Qed.
