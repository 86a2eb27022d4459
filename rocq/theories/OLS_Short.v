(** Regressions with no more rows than regressors. *)
From Coq Require Import Reals Lra.
From Verif Require Import Series OLS_Model OLS_Spec OLS_Proofs OLS_TStat.
Local Open Scope nat_scope.

Section Short.
  Variables X N : mat.
  Hypothesis HN : inverse_of (gram X) N.
  Notation n := (nr X).
  Notation k := (nc X).

  Lemma inv_gram_sym i j : i < k -> j < k -> at_ N i j = at_ N j i.
  Proof.
    intros Hi Hj. change (at_ N j i) with (at_ (tr N) i j). apply (inverse_unique (gram X)); auto.
    destruct HN as (A & B & C & HL & HR). split; [exact A|]. split; [exact C|]. split; [exact B|].
    cbn [gram nr nc at_ tr] in *.
    assert (HG : forall a b, rsumn n (fun q => at_ X q a * at_ X q b)%R = rsumn n (fun q => at_ X q b * at_ X q a)%R) by (intros; apply rsumn_ext; intros; lra).
    split; intros a b Ha Hb; rewrite delta_sym; [rewrite <- (HR b a) by auto|rewrite <- (HL b a) by auto]; apply rsumn_ext; intros c Hc; rewrite (HG _ c) || rewrite (HG c _); lra.
  Qed.

  Let W i l := rsumn k (fun a => at_ X i a * at_ N a l)%R.
  Let P i j := rsumn k (fun l => W i l * at_ X j l)%R.
  Let Q i j := (delta i j - P i j)%R.

  Lemma XW_id a b : a < k -> b < k -> rsumn n (fun i => at_ X i a * W i b)%R = delta a b.
  Proof.
    intros Ha Hb. destruct HN as (_ & _ & _ & HL & _). cbn [gram nr nc at_] in HL. rewrite <- (HL a b Ha Hb). unfold W.
    rewrite (rsumn_ext _ _ (fun i => rsumn k (fun c => at_ X i a * at_ X i c * at_ N c b))%R).
    2:{ intros i Hi. rewrite <- rsumn_scal. apply rsumn_ext. intros; lra. }
    rewrite rsumn_swap. apply rsumn_ext. intros c Hc. now rewrite rsumn_scal_r.
  Qed.
  Lemma P_sym i j : P i j = P j i.
  Proof.
    unfold P, W.
    rewrite (rsumn_ext _ _ (fun l => rsumn k (fun a => at_ X i a * at_ N a l * at_ X j l))%R) by (intros; now rewrite rsumn_scal_r).
    rewrite rsumn_swap. apply rsumn_ext. intros a Ha. rewrite <- rsumn_scal_r. apply rsumn_ext. intros l Hl.
    rewrite (inv_gram_sym a l) by auto. lra.
  Qed.
  Lemma P_idem i h : rsumn n (fun j => P i j * P j h)%R = P i h.
  Proof.
    transitivity (rsumn n (fun j => rsumn k (fun l => rsumn k (fun a => (W i l * at_ X h a) * (at_ X j l * W j a))))%R).
    { apply rsumn_ext. intros j Hj. unfold P at 1. rewrite <- rsumn_scal_r. apply rsumn_ext. intros l Hl.
      unfold P. rewrite <- rsumn_scal. apply rsumn_ext. intros a Ha. lra. }
    rewrite rsumn_swap. unfold P. apply rsumn_ext. intros l Hl. rewrite rsumn_swap.
    rewrite (rsumn_ext _ _ (fun a => delta l a * (W i l * at_ X h a))%R).
    2:{ intros a Ha. rewrite rsumn_scal, XW_id by auto. lra. }
    now rewrite rsumn_delta' by auto.
  Qed.
  Lemma P_trace : rsumn n (fun i => P i i) = INR k.
  Proof.
    unfold P. rewrite rsumn_swap. rewrite (rsumn_ext _ _ (fun _ => 1%R)).
    - rewrite rsumn_const. lra.
    - intros l Hl. rewrite (rsumn_ext _ _ (fun i => at_ X i l * W i l)%R) by (intros; lra).
      rewrite XW_id by auto. unfold delta. now rewrite Nat.eqb_refl.
  Qed.
  Lemma Q_sq i : i < n -> Q i i = rsumn n (fun j => Q i j * Q i j)%R.
  Proof.
    intros Hi. unfold Q.
    rewrite (rsumn_ext _ _ (fun j => delta i j * (delta i j - 2 * P i j) + P i j * P j i)%R) by (intros; rewrite (P_sym j0 i) || rewrite (P_sym i0 i) || idtac; lra).
    rewrite rsumn_plus, rsumn_delta', P_idem by auto. unfold delta. rewrite Nat.eqb_refl. lra.
  Qed.
  Lemma Q_trace : rsumn n (fun i => Q i i) = (INR n - INR k)%R.
  Proof.
    unfold Q. rewrite rsumn_minus, P_trace. rewrite (rsumn_ext _ _ (fun _ => 1%R)) by (intros; unfold delta; now rewrite Nat.eqb_refl).
    rewrite rsumn_const. lra.
  Qed.

  (** At least as many rows as regressors. *)
  Lemma gram_rows : k <= n.
  Proof.
    assert (0 <= INR n - INR k)%R; [|apply INR_le; lra]. rewrite <- Q_trace. apply rsumn_nonneg. intros i Hi. rewrite Q_sq by auto.
    apply rsumn_nonneg. intros j Hj. exact (Rle_0_sqr _).
  Qed.

  (** Exactly as many: the fit is exact. *)
  Lemma square_exact y beta : n = k -> (forall j, j < k -> rsumn n (fun i => at_ X i j * resid X y beta i)%R = 0%R) -> sse X y beta = 0%R.
  Proof.
    intros E Ho. assert (Hsq : forall i, i < n -> (0 <= Q i i)%R).
    { intros i Hi. rewrite Q_sq by auto. apply rsumn_nonneg. intros j Hj. exact (Rle_0_sqr _). }
    assert (HQ : forall i j, i < n -> j < n -> Q i j = 0%R).
    { intros i j Hi Hj. pose proof (rsumn_zero_inv _ _ Hsq ltac:(rewrite Q_trace, E; lra) i Hi) as Hz. cbv beta in Hz. rewrite Q_sq in Hz by auto.
      pose proof (rsumn_zero_inv n (fun j => Q i j * Q i j)%R ltac:(intros; exact (Rle_0_sqr _)) Hz j Hj) as Hz2. cbv beta in Hz2. now apply Rmult_integral in Hz2 as [Hz2|Hz2]. }
    unfold sse. apply rsumn_zero. intros i Hi. assert (resid X y beta i = 0)%R as ->; [|lra].
    rewrite <- (rsumn_delta' n i (resid X y beta) Hi).
    rewrite (rsumn_ext _ _ (fun j => rsumn k (fun l => W i l * (at_ X j l * resid X y beta j)))%R).
    2:{ intros j Hj. specialize (HQ i j Hi Hj). unfold Q in HQ. replace (delta i j) with (P i j) by lra. unfold P.
        rewrite <- rsumn_scal_r. apply rsumn_ext. intros; lra. }
    rewrite rsumn_swap. apply rsumn_zero. intros l Hl. rewrite rsumn_scal, Ho by auto. lra.
  Qed.
End Short.

Lemma c45_few inv : inv_sound inv -> forall X y, nr y = nr X -> nc y = 1 -> nr X <= nc X ->
  (nr X < nc X -> forall r, get_beta_and_beta_var inv X y <> Ok r) /\
  (nr X = nc X -> forall b V, get_beta_and_beta_var inv X y = Ok (b, V) ->
     sse X y (fun l => at_ b l 0) = 0%R /\ forall i j, V i j = NaN).
Proof.
  intros Hs X y Hr Hc Hle. split.
  - intros Hlt [b V] H. destruct (ols_unfold inv Hs X y b V Hr Hc H) as (N & HN & _). pose proof (gram_rows X N HN). lia.
  - intros E b V H. destruct (ols_unfold inv Hs X y b V Hr Hc H) as (N & HN & _ & _ & _ & HV).
    pose proof (square_exact X N HN y _ E (ols_normal inv Hs X y b V Hr Hc H)) as E0. split; auto.
    intros i j. rewrite HV, E0, E, Rminus_diag_eq by auto.
    assert (ediv (Fin 0%R) (Fin 0%R) = NaN) as ->; [|reflexivity].
    unfold ediv, asign. cbn [aeqb altb Arith_R a0]. destruct (Req_EM_T 0 0); [|lra]. destruct (Rlt_dec 0 0); [lra|reflexivity].
Qed.
