(** t-statistics: uniqueness and extensionality. *)
From Coq Require Import Reals Lra.
From Verif Require Import PreludeFacts Series OLS_Model OLS_Spec OLS_Proofs OLS_Proofs2 Break_Model Break_Spec.
Local Open Scope nat_scope.

Lemma inverse_unique M N N' : inverse_of M N -> inverse_of M N' -> forall i j, i < nr M -> j < nr M -> at_ N i j = at_ N' i j.
Proof.
  intros (_ & _ & _ & _ & HL) (_ & _ & _ & HR & _) i j Hi Hj. set (n := nr M) in *.
  rewrite <- (rsumn_delta n j (fun k => at_ N i k) Hj).
  rewrite (rsumn_ext _ _ (fun k => rsumn n (fun l => (at_ N i k * at_ M k l) * at_ N' l j))%R).
  2:{ intros k Hk. rewrite <- (HR k j) by auto. rewrite <- rsumn_scal_r. apply rsumn_ext. intros; lra. }
  rewrite rsumn_swap.
  rewrite (rsumn_ext _ _ (fun l => delta i l * at_ N' l j)%R).
  2:{ intros l Hl. rewrite rsumn_scal_r. now rewrite HL. }
  exact (rsumn_delta' n i (fun l => at_ N' l j) Hi).
Qed.

Lemma minimiser_unique X y N b b' : inverse_of (gram X) N ->
  (forall c, (sse X y b <= sse X y c)%R) -> (forall c, (sse X y b' <= sse X y c)%R) -> forall j, j < nc X -> b j = b' j.
Proof.
  intros HN Hb Hb' j Hj. set (mid := fun l => ((b l + b' l) / 2)%R).
  assert (E : (sse X y b + sse X y b' = 2 * sse X y mid +
     / 2 * rsumn (nr X) (fun i => let f := rsumn (nc X) (fun l => at_ X i l * (b l - b' l)) in f * f))%R).
  { unfold sse. rewrite <- rsumn_plus, <- !rsumn_scal, <- rsumn_plus. apply rsumn_ext. intros i _. cbv zeta.
    set (p := rsumn (nc X) (fun l => at_ X i l * b l)%R). set (q := rsumn (nc X) (fun l => at_ X i l * b' l)%R).
    assert (rsumn (nc X) (fun l => at_ X i l * (b l - b' l))%R = p - q)%R as ->.
    { unfold p, q. rewrite <- rsumn_minus. apply rsumn_ext. intros; lra. }
    assert (resid X y mid i = at_ y i 0 - (p + q) / 2)%R as ->.
    { unfold resid, mid, p, q. f_equal. rewrite <- rsumn_plus. unfold Rdiv. rewrite <- rsumn_scal_r. apply rsumn_ext. intros; lra. }
    unfold resid. fold p q. field. }
  assert (Hsq : forall i, i < nr X -> (0 <= let f := rsumn (nc X) (fun l => at_ X i l * (b l - b' l)) in f * f)%R) by (intros i _; exact (Rle_0_sqr _)).
  pose proof (rsumn_nonneg _ _ Hsq) as H0. pose proof (Hb mid) as H1. pose proof (Hb' mid) as H2. pose proof (Hb b'). pose proof (Hb' b).
  assert (Hz : forall i, i < nr X -> rsumn (nc X) (fun l => at_ X i l * (b l - b' l))%R = 0%R).
  { intros i Hi. pose proof (rsumn_zero_inv _ _ Hsq ltac:(lra) i Hi) as Ez. cbv zeta in Ez. now apply Rmult_integral in Ez as [Ez|Ez]. }
  pose proof (gram_injective X N (fun l => b l - b' l)%R HN Hz j Hj) as E0. cbv beta in E0. lra.
Qed.

Lemma t_stat_unique X y v v' : 0 < nc X -> t_stat X y v -> t_stat X y v' -> v = v'.
Proof.
  intros Hc (b & N & HN & Hb & ->) (b' & N' & HN' & Hb' & ->).
  rewrite (minimiser_unique X y N b b' HN Hb Hb' 0 Hc).
  rewrite (inverse_unique _ _ _ HN HN' 0 0) by auto.
  replace (sse X y b') with (sse X y b); [reflexivity|]. apply Rle_antisym; auto.
Qed.

(** Matrices with the same entries. *)
Definition meq (X Y : mat) : Prop := nr X = nr Y /\ nc X = nc Y /\ forall i j, i < nr X -> j < nc X -> at_ X i j = at_ Y i j.
Lemma meq_sym X Y : meq X Y -> meq Y X.
Proof. intros (E1 & E2 & H). split; auto. split; auto. intros. symmetry. apply H; lia. Qed.

Lemma sse_meq X X' y y' c : meq X X' -> meq y y' -> nr y = nr X -> nc y = 1 -> sse X y c = sse X' y' c.
Proof.
  intros (E1 & E2 & H) (F1 & F2 & G) Hr Hc. unfold sse. rewrite E1. apply rsumn_ext. intros i Hi.
  assert (resid X y c i = resid X' y' c i) as ->; auto. unfold resid. rewrite G by lia. f_equal. rewrite E2.
  apply rsumn_ext. intros l Hl. rewrite H by lia. reflexivity.
Qed.
Lemma gram_meq X X' N : meq X X' -> inverse_of (gram X) N -> inverse_of (gram X') N.
Proof.
  intros (E1 & E2 & H) (_ & A & B & HL & HR). cbn [gram nr nc at_] in *. rewrite E2 in *.
  assert (HG : forall i j, i < nc X' -> j < nc X' -> rsumn (nr X) (fun k => at_ X k i * at_ X k j)%R = rsumn (nr X') (fun k => at_ X' k i * at_ X' k j)%R).
  { intros i j Hi Hj. rewrite E1. apply rsumn_ext. intros k Hk. rewrite !H by lia. reflexivity. }
  split; [reflexivity|]. split; [exact A|]. split; [exact B|]. cbn [gram nr nc at_].
  split; intros i j Hi Hj; [rewrite <- HL by auto|rewrite <- HR by auto]; apply rsumn_ext; intros k Hk; now rewrite HG.
Qed.
Lemma t_stat_meq X X' y y' v : meq X X' -> meq y y' -> nr y = nr X -> nc y = 1 -> t_stat X y v -> t_stat X' y' v.
Proof.
  intros HX Hy Hr Hc (b & N & HN & Hb & ->). exists b, N. split; [now apply (gram_meq X)|].
  pose proof (sse_meq X X' y y') as Hs. split.
  - intros c. rewrite <- !Hs by auto. apply Hb.
  - rewrite <- Hs by auto. destruct HX as (E1 & E2 & _). now rewrite E1, E2.
Qed.
Lemma degenerate_meq X X' y y' : meq X X' -> meq y y' -> nr y = nr X -> nc y = 1 -> degenerate X y -> degenerate X' y'.
Proof.
  intros HX Hy Hr Hc [H|(b & H)].
  - left. intros N HN. apply (H N). now apply (gram_meq X' X _ (meq_sym _ _ HX)).
  - right. exists b. now rewrite <- (sse_meq X X' y y').
Qed.

Section Code.
  Variable inv : mat -> result mat.
  Hypothesis Hs : inv_sound inv.

  Lemma code_tstat X y b V : nr y = nr X -> nc y = 1 -> 0 < nc X < nr X -> get_beta_and_beta_var inv X y = Ok (b, V) ->
    (~ degenerate X y /\ exists v, t_stat X y v /\ py_div (Fin (at_ b 0 0)) (pow_half (V 0 0)) = Ok (Fin v)) \/
    (degenerate X y /\ py_div (Fin (at_ b 0 0)) (pow_half (V 0 0)) = Err ZeroDivisionError).
  Proof.
    intros Hr Hc Hk H. destruct (c45 inv Hs X y b V Hr Hc H) as (_ & Hmin & _ & N & HN & HV & _). cbv zeta in *.
    specialize (HV ltac:(lia)). rewrite HV. set (beta := fun l => at_ b l 0) in *.
    pose proof (sse_nonneg X y beta) as H0. pose proof (inv_gram_diag X N 0 HN ltac:(lia)) as Hd.
    pose proof (lt_INR (nc X) (nr X) ltac:(lia)) as Hlt.
    set (q := (sse X y beta / (INR (nr X) - INR (nc X)) * at_ N 0 0)%R).
    assert (Hq : (0 <= q)%R).
    { unfold q. apply Rmult_le_pos; [|lra]. apply Rmult_le_pos; auto. left. apply Rinv_0_lt_compat. lra. }
    cbn [pow_half esqrt]. destruct (Rlt_dec q 0) as [|_]; [lra|]. unfold py_div. cbn [aeqb Arith_R a0].
    destruct (Req_EM_T (sse X y beta) 0) as [E|E].
    - right. split; [right; now exists beta|].
      assert (q = 0%R) as -> by (unfold q; rewrite E; unfold Rdiv; ring). rewrite sqrt_0. destruct (Req_EM_T 0 0); [reflexivity|lra].
    - left. assert (0 < q)%R as Hqp.
      { unfold q. apply Rmult_lt_0_compat; auto. apply Rmult_lt_0_compat; [lra|]. apply Rinv_0_lt_compat. lra. }
      split.
      + intros [Hn|(c & Hc0)]; [now apply (Hn N)|]. specialize (Hmin c). rewrite Hc0 in Hmin. lra.
      + pose proof (sqrt_lt_R0 _ Hqp) as Hsq. exists (beta 0%nat / sqrt q)%R. split.
        * exists beta, N. split; auto.
        * destruct (Req_EM_T (sqrt q) 0); [lra|]. cbn [ediv aeqb Arith_R a0]. destruct (Req_EM_T (sqrt q) 0); [lra|]. reflexivity.
  Qed.
End Code.
