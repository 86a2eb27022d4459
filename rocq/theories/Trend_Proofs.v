(** Proofs for the trend scanner: simple regression. *)
From Coq Require Import Reals Lra.
From Verif Require Import PreludeFacts Series Boot_Model OLS_Model OLS_Spec OLS_Proofs Trend_Model.
Local Open Scope nat_scope.

Lemma INR_pos n : 1 <= n -> (0 < INR n)%R.
Proof. intros. apply lt_0_INR. lia. Qed.

Lemma mean_dev n f : 1 <= n -> rsumn n (fun i => f i - mean n f)%R = 0%R.
Proof. intros Hn. rewrite rsumn_minus, rsumn_const. unfold mean. pose proof (INR_pos n Hn). field. lra. Qed.

Lemma sxx_pos n : 2 <= n -> (0 < sxx n)%R.
Proof.
  intros Hn. unfold sxx.
  assert (Hsq : forall i, i < n -> (0 <= (INR i - mean n INR) * (INR i - mean n INR))%R) by (intros i _; exact (Rle_0_sqr _)).
  pose proof (rsumn_nonneg _ _ Hsq) as H0. destruct (Rle_lt_or_eq_dec _ _ H0) as [|E]; auto. exfalso.
  pose proof (rsumn_zero_inv _ _ Hsq (eq_sym E) 0 ltac:(lia)) as E0.
  pose proof (rsumn_zero_inv _ _ Hsq (eq_sym E) 1 ltac:(lia)) as E1. cbn [INR] in E0, E1.
  apply Rmult_integral in E0. apply Rmult_integral in E1. lra.
Qed.

Lemma sxx_alt n : 1 <= n -> sxx n = (rsumn n (fun i => INR i * INR i) - rsumn n INR * rsumn n INR / INR n)%R.
Proof.
  intros Hn. unfold sxx. pose proof (INR_pos n Hn).
  rewrite (rsumn_ext _ _ (fun i => (INR i * INR i - 2 * mean n INR * INR i) + mean n INR * mean n INR)%R) by (intros; lra).
  rewrite rsumn_plus, rsumn_minus, rsumn_const, rsumn_scal. unfold mean. field. lra.
Qed.

Section Simple.
  Variable inv : mat -> result mat.
  Hypothesis Hs : inv_sound inv.
  Variable ys : list R.
  Let n := length ys.
  Let y := fun i => nth i ys 0%R.
  Hypothesis Hn : 2 <= n.
  Let X := trend_design n.

  Lemma gram_00 : at_ (gram X) 0 0 = INR n.
  Proof. cbn. rewrite (rsumn_ext _ _ (fun _ => 1%R)) by (intros; lra). rewrite rsumn_const. lra. Qed.
  Lemma gram_01 : at_ (gram X) 0 1 = rsumn n INR.
  Proof. cbn. apply rsumn_ext. intros. lra. Qed.
  Lemma gram_10 : at_ (gram X) 1 0 = rsumn n INR.
  Proof. cbn. apply rsumn_ext. intros. lra. Qed.
  Lemma gram_11 : at_ (gram X) 1 1 = rsumn n (fun i => INR i * INR i)%R.
  Proof. reflexivity. Qed.

  Lemma inverse_11 N : inverse_of (gram X) N -> at_ N 1 1 = (/ sxx n)%R.
  Proof.
    intros (_ & _ & _ & HGN & _).
    pose proof (HGN 0 1 ltac:(cbn; lia) ltac:(cbn; lia)) as E1. pose proof (HGN 1 1 ltac:(cbn; lia) ltac:(cbn; lia)) as E2.
    unfold delta in E1, E2. cbn [Nat.eqb nr gram nc X trend_design rsumn] in E1, E2.
    fold X in E1, E2. fold (gram X) in E1, E2. 
    change (at_ _ 0 0) with (at_ (gram X) 0 0) in E1. change (rsumn (nr X) (fun k => (at_ X k 0 * at_ X k 0)%R)) with (at_ (gram X) 0 0) in *.
    pose proof (sxx_pos n Hn) as Hp. pose proof (INR_pos n ltac:(lia)) as Hnp. rewrite sxx_alt in * by lia.
    assert (G00 := gram_00). assert (G01 := gram_01). assert (G10 := gram_10). assert (G11 := gram_11).
    cbn [at_ gram] in E1, E2, G00, G01, G10, G11. rewrite ?G00, ?G01 in E1. rewrite ?G10, ?G11 in E2.
    set (s := rsumn n INR) in *. set (q := rsumn n (fun i => INR i * INR i)%R) in *.
    apply (Rmult_eq_reg_r (q - s * s / INR n)); [|lra]. rewrite Rinv_l by lra.
    assert (at_ N 0 1 = - s * at_ N 1 1 / INR n)%R as E3.
    { apply (Rmult_eq_reg_l (INR n)); [|lra]. transitivity (- s * at_ N 1 1)%R; [lra|]. field. lra. }
    rewrite E3 in E2. transitivity (0 + s * (- s * at_ N 1 1 / INR n) + q * at_ N 1 1)%R; [field; lra|exact E2].
  Qed.

  (** The Gram matrix is invertible. *)
  Definition det : R := (INR n * sxx n)%R.
  Definition gram_inv : mat :=
    {| nr := 2; nc := 2; at_ := fun i j =>
       match i, j with
       | O, O => (rsumn n (fun i => INR i * INR i) / det)%R
       | S O, S O => (INR n / det)%R
       | O, _ | S O, _ => (- rsumn n INR / det)%R
       | _, _ => 0%R
       end |}.
  Lemma gram_invertible : inverse_of (gram X) gram_inv.
  Proof.
    pose proof (sxx_pos n Hn) as Hp. pose proof (INR_pos n ltac:(lia)) as Hnp.
    assert (Hd : det = (INR n * rsumn n (fun i => INR i * INR i) - rsumn n INR * rsumn n INR)%R).
    { unfold det. rewrite sxx_alt by lia. field. lra. }
    assert (Hdp : (0 < det)%R) by (unfold det; now apply Rmult_lt_0_compat).
    assert (G00 := gram_00). assert (G01 := gram_01). assert (G10 := gram_10). assert (G11 := gram_11).
    split; [reflexivity|]. split; [reflexivity|]. split; [reflexivity|].
    split; intros i j Hi Hj; cbn in Hi, Hj;
      (destruct i as [|[|i]]; [| |lia]); (destruct j as [|[|j]]; [| |lia]);
      cbn [rsumn nr gram X trend_design nc]; fold X; rewrite ?G00, ?G01, ?G10, ?G11;
      cbn [at_ gram] in G00, G01, G10, G11 |- *; rewrite ?G00, ?G01, ?G10, ?G11;
      cbn [at_ gram_inv delta Nat.eqb]; unfold delta; cbn [Nat.eqb];
      match goal with |- ?l = 1%R => transitivity ((INR n * rsumn n (fun i => INR i * INR i) - rsumn n INR * rsumn n INR) / det)%R; [|rewrite <- Hd]; field; lra
                    | |- _ => field; lra end.
  Qed.

  Lemma ols_slope b V : get_beta_and_beta_var inv X (colvec ys) = Ok (b, V) ->
    at_ b 1 0 = slope n y /\ sse X (colvec ys) (fun l => at_ b l 0) = rss n y.
  Proof.
    intros H.
    assert (Hr : nr (colvec ys) = nr X) by reflexivity.
    pose proof (ols_normal inv Hs X (colvec ys) b V Hr eq_refl H 0 ltac:(cbn; lia)) as E0.
    pose proof (ols_normal inv Hs X (colvec ys) b V Hr eq_refl H 1 ltac:(cbn; lia)) as E1.
    set (b0 := at_ b 0 0) in *. set (b1 := at_ b 1 0) in *.
    assert (HR : forall i, resid X (colvec ys) (fun l => at_ b l 0) i = (y i - b0 - b1 * INR i)%R).
    { intros i. unfold resid. cbn [rsumn nc X trend_design at_ colvec]. fold b0 b1. unfold y. lra. }
    rewrite (rsumn_ext _ _ (fun i => (y i - b0) - b1 * INR i)%R) in E0 by (intros i _; rewrite HR; cbn; lra).
    rewrite (rsumn_ext _ _ (fun i => INR i * (y i - b0 - b1 * INR i))%R) in E1 by (intros i _; now rewrite HR).
    change (nr X) with n in *.
    pose proof (sxx_pos n Hn) as Hp. pose proof (INR_pos n ltac:(lia)) as Hnp.
    assert (Hb0 : b0 = (mean n y - b1 * mean n INR)%R).
    { rewrite rsumn_minus, rsumn_minus, rsumn_const, rsumn_scal in E0. unfold mean.
      apply (Rmult_eq_reg_l (INR n)); [|lra]. transitivity (rsumn n y - b1 * rsumn n INR)%R; [lra|]. field. lra. }
    assert (HR' : forall i, (y i - b0 - b1 * INR i = y i - mean n y - b1 * (INR i - mean n INR))%R) by (intros i; rewrite Hb0; lra).
    assert (Hb1 : b1 = slope n y).
    { unfold slope. apply (Rmult_eq_reg_r (sxx n)); [|lra]. unfold Rdiv. rewrite Rmult_assoc, Rinv_l, Rmult_1_r by lra.
      (* Σ (i - x̄)(y_i - ȳ - b1 (i - x̄)) = 0 *)
      assert (Hz : rsumn n (fun i => (INR i - mean n INR) * (y i - mean n y - b1 * (INR i - mean n INR)))%R = 0%R).
      { rewrite (rsumn_ext _ _ (fun i => INR i * (y i - b0 - b1 * INR i) - mean n INR * ((y i - b0) - b1 * INR i))%R) by (intros; rewrite <- HR'; lra).
        rewrite rsumn_minus, rsumn_scal, E0, E1. lra. }
      rewrite (rsumn_ext _ _ (fun i => (INR i - mean n INR) * (y i - mean n y) - b1 * ((INR i - mean n INR) * (INR i - mean n INR)))%R) in Hz by (intros; lra).
      rewrite rsumn_minus, rsumn_scal in Hz. fold (sxx n) in Hz. lra. }
    split; auto. unfold sse, rss. change (nr X) with n. apply rsumn_ext. intros i _. rewrite HR, HR', Hb1. reflexivity.
  Qed.

  Lemma rss_nonneg : (0 <= rss n y)%R.
  Proof. apply rsumn_nonneg. intros. exact (Rle_0_sqr _). Qed.
End Simple.

Section Window.
  Variable inv : mat -> result mat.
  Hypothesis Hs : inv_sound inv.
  Hypothesis Hc : inv_complete 2 inv.

  Lemma ols_ok ys : 2 <= length ys -> exists b V, get_beta_and_beta_var inv (trend_design (length ys)) (colvec ys) = Ok (b, V).
  Proof.
    intros Hn. destruct (Hc (gram (trend_design (length ys))) _ eq_refl (gram_invertible ys Hn)) as [N HN].
    pose proof (Hs _ _ HN) as (_ & En & Em & _). cbn [gram nr nc trend_design] in En, Em.
    unfold get_beta_and_beta_var.
    unfold mdot at 1. cbn [tr nc nr trend_design colvec]. rewrite Nat.eqb_refl. cbn [bind].
    unfold mdot at 1. cbn [tr nc nr trend_design colvec]. rewrite Nat.eqb_refl. cbn [bind].
    match goal with |- context [inv ?M] => change M with (gram (trend_design (length ys))) end.
    rewrite HN. cbn [bind].
    unfold mdot at 1. cbn [tr nc nr trend_design colvec]. rewrite Em. cbn [Nat.eqb bind].
    unfold mdot at 1. cbn [tr nc nr trend_design colvec]. rewrite En. cbn [Nat.eqb bind].
    unfold mdot at 1. cbn [tr nc nr trend_design colvec]. rewrite Nat.eqb_refl. cbn [bind].
    eauto.
  Qed.

  Lemma window_t_spec ys : 3 <= length ys ->
    let n := length ys in let y := fun i => nth i ys 0%R in
    window_t inv ys = if Req_EM_T (rss n y) 0 then Err ZeroDivisionError else Ok (Fin (trend_t n y)).
  Proof.
    intros Hn n y. destruct (ols_ok ys ltac:(lia)) as (b & V & HO).
    destruct (ols_slope inv Hs ys ltac:(lia) b V HO) as [Eb Es].
    destruct (ols_unfold inv Hs (trend_design (length ys)) (colvec ys) b V eq_refl eq_refl HO) as (N & HN & _ & _ & _ & HV).
    pose proof (inverse_11 ys ltac:(lia) N HN) as E11. rewrite Es in HV.
    unfold window_t. rewrite HO. cbn [bind]. rewrite HV, E11, Eb.
    fold n. fold y. cbn [nr nc trend_design]. fold n.
    assert (3 <= INR n)%R by (change 3%R with (INR 3) || replace 3%R with (INR 3) by (cbn; lra); apply le_INR; lia).
    pose proof (sxx_pos n ltac:(unfold n; lia)) as Hp.
    pose proof (rss_nonneg ys) as Hr. fold n in Hr. fold y in Hr.
    replace (INR 2) with 2%R by (cbn; lra).
    cbn [ediv emul aeqb Arith_R a0]. destruct (Req_EM_T (INR n - 2) 0) as [|_]; [lra|].
    cbn [emul amul adiv ainv Arith_R esqrt].
    change (rss n y * / (INR n - 2) * / sxx n)%R with (rss n y / (INR n - 2) / sxx n)%R.
    assert (Hvar : (0 <= rss n y / (INR n - 2) / sxx n)%R).
    { unfold Rdiv. repeat apply Rmult_le_pos; auto; left; apply Rinv_0_lt_compat; lra. }
    assert (esqrt (Fin (rss n y / (INR n - 2) / sxx n)%R) = Fin (sqrt (rss n y / (INR n - 2) / sxx n))) as Esq.
    { unfold esqrt. cbn [altb Arith_R a0]. destruct (Rlt_dec (rss n y / (INR n - 2) / sxx n) 0) as [|_]; [lra|reflexivity]. }
    unfold esqrt in Esq. rewrite Esq. clear Esq.
    destruct (Req_EM_T (rss n y) 0) as [E|E].
    - unfold py_div. rewrite E. unfold Rdiv. rewrite !Rmult_0_l, sqrt_0. cbn [aeqb Arith_R a0]. destruct (Req_EM_T 0 0) as [_|]; [reflexivity|lra].
    - assert (Hvp : (0 < rss n y / (INR n - 2) / sxx n)%R).
      { unfold Rdiv. repeat apply Rmult_lt_0_compat; try (apply Rinv_0_lt_compat; lra). lra. }
      pose proof (sqrt_lt_R0 _ Hvp) as Hsq.
      unfold py_div. cbn [aeqb Arith_R a0 ediv]. destruct (Req_EM_T (sqrt (rss n y / (INR n - 2) / sxx n)) 0) as [|_]; [lra|]. reflexivity.
  Qed.
End Window.
