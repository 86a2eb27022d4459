(** Proofs about least squares. *)
From Coq Require Import Reals Lra.
From Verif Require Import PreludeFacts Series OLS_Model OLS_Spec.
Local Open Scope nat_scope.

(** ** Finite sums *)
Lemma rsumn_ext n f g : (forall i, i < n -> f i = g i) -> rsumn n f = rsumn n g.
Proof. induction n; intros H; cbn; auto. rewrite IHn, H by auto. auto. Qed.
Lemma rsumn_plus n f g : rsumn n (fun i => f i + g i)%R = (rsumn n f + rsumn n g)%R.
Proof. induction n; cbn; [lra|]. rewrite IHn. lra. Qed.
Lemma rsumn_minus n f g : rsumn n (fun i => f i - g i)%R = (rsumn n f - rsumn n g)%R.
Proof. induction n; cbn; [lra|]. rewrite IHn. lra. Qed.
Lemma rsumn_scal n c f : rsumn n (fun i => c * f i)%R = (c * rsumn n f)%R.
Proof. induction n; cbn; [lra|]. rewrite IHn. lra. Qed.
Lemma rsumn_scal_r n c f : rsumn n (fun i => f i * c)%R = (rsumn n f * c)%R.
Proof. induction n; cbn; [lra|]. rewrite IHn. lra. Qed.
Lemma rsumn_zero n f : (forall i, i < n -> f i = 0%R) -> rsumn n f = 0%R.
Proof. induction n; intros H; cbn; auto. rewrite IHn, H by auto. lra. Qed.
Lemma rsumn_const n c : rsumn n (fun _ => c) = (INR n * c)%R.
Proof. induction n; [cbn; lra|]. rewrite S_INR. cbn [rsumn]. rewrite IHn. lra. Qed.
Lemma rsumn_nonneg n f : (forall i, i < n -> (0 <= f i)%R) -> (0 <= rsumn n f)%R.
Proof. induction n; intros H; cbn; [lra|]. pose proof (IHn ltac:(auto)). pose proof (H n ltac:(auto)). lra. Qed.
Lemma rsumn_zero_inv n f : (forall i, i < n -> (0 <= f i)%R) -> rsumn n f = 0%R -> forall i, i < n -> f i = 0%R.
Proof.
  induction n; intros H E i Hi; [lia|]. cbn in E.
  pose proof (rsumn_nonneg n f ltac:(auto)). pose proof (H n ltac:(auto)).
  destruct (Nat.eq_dec i n) as [->|]; [lra|]. apply IHn; auto; try lra. lia.
Qed.
Lemma rsumn_swap n m f : rsumn n (fun i => rsumn m (fun j => f i j)) = rsumn m (fun j => rsumn n (fun i => f i j)).
Proof.
  induction n; cbn.
  - symmetry. now apply rsumn_zero.
  - rewrite IHn, <- rsumn_plus. apply rsumn_ext. auto.
Qed.
Lemma rsumn_delta n j f : j < n -> rsumn n (fun i => delta i j * f i)%R = f j.
Proof.
  induction n; intros Hj; [lia|]. cbn. unfold delta at 2. destruct (Nat.eqb_spec n j) as [->|Hne].
  - rewrite rsumn_zero; [lra|]. intros i Hi. unfold delta. destruct (Nat.eqb_spec i j); [lia|lra].
  - rewrite IHn by lia. lra.
Qed.
Lemma rsumn_delta' n j f : j < n -> rsumn n (fun i => delta j i * f i)%R = f j.
Proof.
  intros Hj. rewrite <- (rsumn_delta n j f Hj). apply rsumn_ext. intros i _. unfold delta. now rewrite Nat.eqb_sym.
Qed.
Lemma delta_sym i j : delta i j = delta j i.
Proof. unfold delta. now rewrite Nat.eqb_sym. Qed.

(** ** Least squares *)
Section OLS.
  Variable inv : mat -> result mat.
  Hypothesis Hinv : inv_sound inv.

  (** What a successful call computes. *)
  Lemma ols_unfold X y b V : nr y = nr X -> nc y = 1 -> get_beta_and_beta_var inv X y = Ok (b, V) ->
    exists N, inverse_of (gram X) N /\ nr b = nc X /\ nc b = 1 /\
      (forall j, at_ b j 0 = rsumn (nc X) (fun k => at_ N j k * rsumn (nr X) (fun i => at_ X i k * at_ y i 0))%R) /\
      (forall i j, V i j = emul (ediv (Fin (sse X y (fun l => at_ b l 0))) (Fin (INR (nr X) - INR (nc X))%R)) (Fin (at_ N i j))).
  Proof.
    intros Hr Hc H. unfold get_beta_and_beta_var in H.
    unfold mdot at 1 in H. cbn [tr nc nr] in H. rewrite Hr, Nat.eqb_refl in H. cbn [bind] in H.
    unfold mdot at 1 in H. cbn [tr nc nr] in H. rewrite Nat.eqb_refl in H. cbn [bind] in H.
    match type of H with bind (inv ?M) _ = _ => destruct (inv M) as [N|] eqn:E; cbn [bind] in H; [|discriminate] end.
    apply Hinv in E. cbn [tr at_] in E. fold (gram X) in E.
    exists N. split; [exact E|]. destruct E as (_ & En & Em & _). cbn [gram nr] in En, Em.
    unfold mdot at 1 in H. cbn [tr nc nr] in H. rewrite Em, Nat.eqb_refl in H. cbn [bind] in H.
    unfold mdot at 1 in H. cbn [tr nc nr] in H. rewrite En, Nat.eqb_refl in H. cbn [bind] in H.
    unfold mdot at 1 in H. cbn [tr nc nr] in H. rewrite ?Hr, Nat.eqb_refl in H. cbn [bind] in H.
    injection H as <- <-. cbn [nr nc at_ tr]. repeat split; auto.
  Qed.

  Lemma ols_normal X y b V : nr y = nr X -> nc y = 1 -> get_beta_and_beta_var inv X y = Ok (b, V) ->
    forall j, j < nc X -> rsumn (nr X) (fun i => at_ X i j * resid X y (fun l => at_ b l 0) i)%R = 0%R.
  Proof.
    intros Hr Hc H j Hj. destruct (ols_unfold X y b V Hr Hc H) as (N & (_ & _ & _ & HGN & _) & _ & _ & Hb & _).
    cbn [gram nr at_] in HGN. unfold resid.
    rewrite (rsumn_ext _ _ (fun i => at_ X i j * at_ y i 0 - at_ X i j * rsumn (nc X) (fun l => at_ X i l * at_ b l 0))%R) by (intros; lra).
    rewrite rsumn_minus.
    (* Σ_i X_ij Σ_l X_il b_l = Σ_l G_jl b_l = Σ_l G_jl Σ_k N_lk (X'y)_k = (X'y)_j *)
    set (g := fun k => rsumn (nr X) (fun i => at_ X i k * at_ y i 0)%R). fold (g j).
    assert (E : rsumn (nr X) (fun i => at_ X i j * rsumn (nc X) (fun l => at_ X i l * at_ b l 0))%R = g j); [|lra].
    rewrite (rsumn_ext _ _ (fun i => rsumn (nc X) (fun l => at_ X i j * at_ X i l * at_ b l 0)%R))
      by (intros; rewrite <- rsumn_scal; apply rsumn_ext; intros; lra).
    rewrite rsumn_swap.
    rewrite (rsumn_ext _ _ (fun l => rsumn (nc X) (fun k => (rsumn (nr X) (fun i => at_ X i j * at_ X i l) * at_ N l k) * g k))%R).
    2:{ intros l Hl. rewrite rsumn_scal_r. rewrite Hb. fold g. rewrite <- rsumn_scal. apply rsumn_ext. intros. unfold g. lra. }
    rewrite rsumn_swap.
    rewrite (rsumn_ext _ _ (fun k => delta j k * g k)%R).
    2:{ intros k Hk. rewrite rsumn_scal_r. now rewrite HGN. }
    now apply rsumn_delta'.
  Qed.

  (** Σ e_i (X d)_i = 0 *)
  Lemma ols_orth X y b V d : nr y = nr X -> nc y = 1 -> get_beta_and_beta_var inv X y = Ok (b, V) ->
    rsumn (nr X) (fun i => resid X y (fun l => at_ b l 0) i * rsumn (nc X) (fun l => at_ X i l * d l))%R = 0%R.
  Proof.
    intros Hr Hc H.
    rewrite (rsumn_ext _ _ (fun i => rsumn (nc X) (fun l => d l * (at_ X i l * resid X y (fun l => at_ b l 0) i)))%R)
      by (intros; rewrite <- rsumn_scal; apply rsumn_ext; intros; lra).
    rewrite rsumn_swap. apply rsumn_zero. intros l Hl. rewrite rsumn_scal. rewrite (ols_normal X y b V) by auto. lra.
  Qed.

  Lemma ols_pythagoras X y b V c : nr y = nr X -> nc y = 1 -> get_beta_and_beta_var inv X y = Ok (b, V) ->
    sse X y c = (sse X y (fun l => at_ b l 0) +
      rsumn (nr X) (fun i => let f := rsumn (nc X) (fun l => at_ X i l * (at_ b l 0 - c l)) in f * f))%R.
  Proof.
    intros Hr Hc H. pose proof (ols_orth X y b V (fun l => at_ b l 0 - c l)%R Hr Hc H) as Ho.
    unfold sse.
    rewrite (rsumn_ext _ (fun i => (resid X y c i * resid X y c i)%R)
      (fun i => (resid X y (fun l => at_ b l 0) i * resid X y (fun l => at_ b l 0) i +
        2 * (resid X y (fun l => at_ b l 0) i * rsumn (nc X) (fun l => at_ X i l * (at_ b l 0 - c l)))) +
        rsumn (nc X) (fun l => at_ X i l * (at_ b l 0 - c l)) * rsumn (nc X) (fun l => at_ X i l * (at_ b l 0 - c l)))%R).
    - rewrite rsumn_plus, rsumn_plus, rsumn_scal, Ho. cbv zeta. lra.
    - intros i _. set (f := rsumn (nc X) (fun l => at_ X i l * (at_ b l 0 - c l))%R).
      assert (resid X y c i = resid X y (fun l => at_ b l 0) i + f)%R as ->; [|lra].
      unfold resid, f. rewrite (rsumn_ext (nc X) (fun l => at_ X i l * (at_ b l 0 - c l))%R (fun l => at_ X i l * at_ b l 0 - at_ X i l * c l)%R) by (intros; lra).
      rewrite rsumn_minus. lra.
  Qed.

  Lemma ols_minimal X y b V c : nr y = nr X -> nc y = 1 -> get_beta_and_beta_var inv X y = Ok (b, V) ->
    (sse X y (fun l => at_ b l 0) <= sse X y c)%R.
  Proof.
    intros Hr Hc H. rewrite (ols_pythagoras X y b V c) by auto.
    match goal with |- (_ <= _ + ?s)%R => assert (0 <= s)%R; [|lra] end.
    apply rsumn_nonneg. intros. cbv zeta. match goal with |- (0 <= ?f * ?f)%R => pose proof (Rle_0_sqr f) as Hs; unfold Rsqr in Hs; exact Hs end.
  Qed.

  (** The Gram matrix sends only zero to zero, so the minimiser is unique. *)
  Lemma gram_injective X N d : inverse_of (gram X) N ->
    (forall i, i < nr X -> rsumn (nc X) (fun l => at_ X i l * d l)%R = 0%R) -> forall j, j < nc X -> d j = 0%R.
  Proof.
    intros (_ & _ & _ & _ & HNG) Hz j Hj. cbn [gram nr at_] in HNG.
    rewrite <- (rsumn_delta' (nc X) j d Hj).
    rewrite (rsumn_ext _ _ (fun l => rsumn (nc X) (fun k => at_ N j k * (rsumn (nr X) (fun i => at_ X i k * at_ X i l) * d l)))%R).
    2:{ intros l Hl. rewrite <- HNG by auto. rewrite <- rsumn_scal_r. apply rsumn_ext. intros; lra. }
    rewrite rsumn_swap. apply rsumn_zero. intros k Hk. rewrite rsumn_scal.
    rewrite (rsumn_ext _ _ (fun l => rsumn (nr X) (fun i => at_ X i k * (at_ X i l * d l)))%R).
    2:{ intros l Hl. rewrite <- rsumn_scal_r. apply rsumn_ext. intros; lra. }
    rewrite rsumn_swap. rewrite rsumn_zero; [lra|]. intros i Hi. rewrite rsumn_scal, Hz by auto. lra.
  Qed.

  Lemma ols_unique X y b V c : nr y = nr X -> nc y = 1 -> get_beta_and_beta_var inv X y = Ok (b, V) ->
    (sse X y c <= sse X y (fun l => at_ b l 0))%R -> forall j, j < nc X -> c j = at_ b j 0.
  Proof.
    intros Hr Hc H Hle j Hj. destruct (ols_unfold X y b V Hr Hc H) as (N & HN & _).
    rewrite (ols_pythagoras X y b V c) in Hle by auto.
    assert (at_ b j 0 - c j = 0)%R; [|lra].
    apply (gram_injective X N (fun l => at_ b l 0 - c l)%R HN); auto.
    assert (Hsq : forall i, i < nr X -> (0 <= let f := rsumn (nc X) (fun l => at_ X i l * (at_ b l 0 - c l)) in f * f)%R).
    { intros i _. cbv zeta. match goal with |- (0 <= ?f * ?f)%R => pose proof (Rle_0_sqr f) as Hs; unfold Rsqr in Hs; exact Hs end. }
    pose proof (rsumn_nonneg _ _ Hsq) as H0.
    intros i Hi. pose proof (rsumn_zero_inv _ _ Hsq ltac:(lra) i Hi) as E. cbv zeta in E. now apply Rmult_integral in E as [E|E].
  Qed.

  (** Diagonal of the inverse Gram matrix is positive. *)
  Lemma inv_gram_diag X N j : inverse_of (gram X) N -> j < nc X -> (0 < at_ N j j)%R.
  Proof.
    intros HN Hj. pose proof HN as (_ & _ & _ & HGN & HNG). cbn [gram nr at_] in HGN, HNG.
    set (v := fun i => rsumn (nc X) (fun l => at_ X i l * at_ N l j)%R).
    assert (E : at_ N j j = rsumn (nr X) (fun i => v i * v i)%R).
    { rewrite <- (rsumn_delta (nc X) j (fun k => at_ N k j) Hj).
      rewrite (rsumn_ext _ _ (fun k => rsumn (nr X) (fun i => (at_ X i k * at_ N k j) * v i))%R).
      2:{ intros k Hk. rewrite <- HGN by auto. rewrite <- rsumn_scal_r. unfold v.
          rewrite (rsumn_ext _ (fun i => rsumn (nr X) _ * at_ N i j * at_ N k j)%R
            (fun l => rsumn (nr X) (fun i => at_ X i k * at_ X i l * at_ N l j * at_ N k j))%R).
          - rewrite rsumn_swap. apply rsumn_ext. intros i Hi. rewrite <- rsumn_scal. apply rsumn_ext. intros. lra.
          - intros l Hl. rewrite <- rsumn_scal_r, <- rsumn_scal_r. apply rsumn_ext. auto. }
      rewrite rsumn_swap. apply rsumn_ext. intros i Hi. now rewrite rsumn_scal_r. }
    assert (Hsq : forall i, i < nr X -> (0 <= v i * v i)%R) by (intros i _; pose proof (Rle_0_sqr (v i)) as Hs; exact Hs).
    pose proof (rsumn_nonneg _ _ Hsq) as H0. rewrite <- E in H0.
    destruct (Rle_lt_or_eq_dec _ _ H0) as [|E0]; auto. exfalso.
    assert (Hv : forall i, i < nr X -> v i = 0%R).
    { intros i Hi. rewrite E in E0. pose proof (rsumn_zero_inv _ _ Hsq (eq_sym E0) i Hi) as Ev. now apply Rmult_integral in Ev as [Ev|Ev]. }
    (* then N_.j = 0 but G N = I *)
    pose proof (gram_injective X N (fun l => at_ N l j) HN Hv) as Hz.
    specialize (HGN j j Hj Hj). rewrite rsumn_zero in HGN by (intros k Hk; rewrite Hz by auto; lra).
    unfold delta in HGN. rewrite Nat.eqb_refl in HGN. lra.
  Qed.

  Lemma sse_nonneg X y c : (0 <= sse X y c)%R.
  Proof. apply rsumn_nonneg. intros i _. exact (Rle_0_sqr _). Qed.

  Lemma c45 X y b V : nr y = nr X -> nc y = 1 -> get_beta_and_beta_var inv X y = Ok (b, V) ->
    let beta := fun l => at_ b l 0 in
    (forall j, j < nc X -> rsumn (nr X) (fun i => at_ X i j * resid X y beta i)%R = 0%R) /\
    (forall c, (sse X y beta <= sse X y c)%R) /\
    (forall c, (sse X y c <= sse X y beta)%R -> forall j, j < nc X -> c j = beta j) /\
    exists N, inverse_of (gram X) N /\
      (nc X < nr X -> forall i j, V i j = Fin (sse X y beta / (INR (nr X) - INR (nc X)) * at_ N i j)%R) /\
      (nc X < nr X -> forall j, j < nc X -> exists v, V j j = Fin v /\ (0 <= v)%R).
  Proof.
    intros Hr Hc H beta. split; [|split; [|split]].
    - now apply (ols_normal X y b V).
    - intros c. now apply (ols_minimal X y b V).
    - intros c Hle. now apply (ols_unique X y b V).
    - destruct (ols_unfold X y b V Hr Hc H) as (N & HN & _ & _ & _ & HV). exists N. split; auto.
      assert (HVF : nc X < nr X -> forall i j, V i j = Fin (sse X y beta / (INR (nr X) - INR (nc X)) * at_ N i j)%R).
      { intros Hlt i j. rewrite HV. pose proof (lt_INR _ _ Hlt). cbn. destruct (Req_EM_T (INR (nr X) - INR (nc X)) 0); [lra|]. reflexivity. }
      split; auto. intros Hlt j Hj. eexists. split; [apply HVF; auto|]. pose proof (lt_INR _ _ Hlt).
      apply Rmult_le_pos; [|left; eapply inv_gram_diag; eauto]. apply Rmult_le_pos; [apply sse_nonneg|].
      left. apply Rinv_0_lt_compat. lra.
  Qed.
End OLS.
