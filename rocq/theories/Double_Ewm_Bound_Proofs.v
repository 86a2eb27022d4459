(** Exponential averages in doubles: the distance from the exact average does not grow with the history. *)
From Coq Require Import Reals ZArith Lra Lia List String.
From Flocq.Core Require Raux Zaux.
From Verif Require Import Prelude PreludeFacts Num Series DailyVol_Model Feat_Model Ewm_Model Ewm_Proofs
  Double_Model Double_Spec Double_Proofs Double_Proofs2 Double_Bet_Proofs2 Double_Vpin_Model Double_Z_Model Double_Ewm_Model Double_Ewm_Proofs Double_Bound_Spec Double_Bound_Proofs.
Import ListNotations.
Local Open Scope R_scope.
Local Notation length := List.length.

Lemma tiny_1 : 0 <= tiny <= eps64 / 1000.
Proof.
  split; [unfold tiny; apply Raux.bpow_ge_0|]. pose proof (tiny_M 1 1 0 ltac:(rewrite <- bpow2; apply (Raux.bpow_le Zaux.radix2 (-1000) 0); lia) Nat.lt_0_1). lra.
Qed.
Lemma rnd x b : Rabs x <= b -> - (eps64 * b + tiny) <= to_double x - x <= eps64 * b + tiny.
Proof. intros H. pose proof (error_any x) as E. apply abs_le in E. unfold eps64 in *. lra. Qed.

(** ** The factor *)
Lemma factor_error span : 1 <= span -> Rabs (@wt_factor R DA span - old_wt_factor span) <= 8 * eps64.
Proof.
  intros Hs. unfold wt_factor, old_wt_factor, asub, adiv. change (@aadd R DA (@a1 R DA) (@a1 R DA)) with (@aadd R DA 1 1). rewrite two. cbn [aadd aopp amul ainv a1 Arith_double]. pose proof tiny_1 as [t0 t1].
  set (x1 := to_double (span + - (1))). pose proof (rnd (span + - (1)) (span - 1) ltac:(apply Rabs_le; lra)) as E1. fold x1 in E1.
  assert (P1 : 0 <= x1) by (apply to_double_nonneg; lra).
  set (x2 := to_double (x1 * / 2)). pose proof (rnd (x1 * / 2) (x1 / 2) ltac:(apply Rabs_le; lra)) as E2. fold x2 in E2. assert (P2 : 0 <= x2) by (apply to_double_nonneg; lra).
  set (x3 := to_double (1 + x2)). pose proof (rnd (1 + x2) (1 + x2) ltac:(apply Rabs_le; lra)) as E3. fold x3 in E3. assert (P3 : 1 <= x3) by (apply to_double_ge_double; [apply is_double_1|lra]).
  set (W := 1 + (span - 1) / 2). assert (HW : 1 <= W) by (unfold W; lra).
  assert (D : Rabs (W - x3) <= 4 * eps64 * W) by (apply Rabs_le; unfold W, eps64 in *; lra).
  assert (R3 : 0 < / x3 <= 1) by (split; [apply Rinv_0_lt_compat; lra|rewrite <- Rinv_1; apply Rinv_le_contravar; lra]).
  assert (Q : Rabs (/ x3 - / W) <= 4 * eps64).
  { replace (/ x3 - / W) with ((W - x3) * / W * / x3) by (field; lra). assert (0 < / W) by (apply Rinv_0_lt_compat; lra). rewrite !Rabs_mult, (Rabs_pos_eq (/ x3)), (Rabs_pos_eq (/ W)) by lra.
    apply Rle_trans with (4 * eps64 * W * / W * / x3); [apply Rmult_le_compat_r; [lra|]; apply Rmult_le_compat_r; lra|]. rewrite (Rmult_assoc _ W), Rinv_r by lra. unfold eps64. lra. }
  set (x4 := to_double (1 * / x3)). pose proof (rnd (1 * / x3) 1 ltac:(apply Rabs_le; lra)) as E4. fold x4 in E4.
  pose proof (rnd (1 + - x4) 2 ltac:(apply Rabs_le; unfold eps64 in *; lra)) as E5.
  unfold Rdiv at 1. rewrite Rmult_1_l. fold W. apply abs_le in Q. apply Rabs_le. unfold eps64 in *. lra.
Qed.

(** ** Mixing an average with a new value *)
Definition mixed (v m c : R) : R := (v * m + c) / (v + 1).
Lemma mix_rounded M v' m' c : powerRZ 2 (-1000) <= M -> 0 <= v' -> Rabs m' <= 2 * M -> Rabs c <= M ->
  Rabs (to_double (to_double (to_double (v' * m') + c) * / to_double (v' + 1)) - mixed v' m' c) <= 9 * eps64 * M.
Proof.
  intros HM Hv Hm Hc. pose proof (M_pos M HM). pose proof tiny_1 as [t0 _]. pose proof (tiny_M M 1 0 HM Nat.lt_0_1) as t1. set (u := v' + 1). assert (U : 1 <= u) by (unfold u; lra).
  apply abs_le in Hm, Hc. assert (P : Rabs (v' * m') <= 2 * M * u) by (apply Rabs_le; unfold u; nra). pose proof (rnd _ _ P) as E1. set (p := to_double (v' * m')) in *.
  assert (MU : M <= M * u) by nra. assert (N1 : - (2 * M * u) <= v' * m' + c <= 2 * M * u) by (unfold u in *; nra).
  assert (P2 : Rabs (p + c) <= 3 * M * u) by (apply Rabs_le; unfold eps64 in *; lra). pose proof (rnd _ _ P2) as E2. set (s := to_double (p + c)) in *.
  assert (S : - (6 * eps64 * (M * u)) <= s - (v' * m' + c) <= 6 * eps64 * (M * u)) by (unfold eps64 in *; lra).
  (* tighter, from the size of the sum itself *)
  assert (P3 : Rabs (p + c) <= 2 * M * u + eps64 * (2 * M * u) + tiny) by (apply Rabs_le; unfold eps64 in *; lra). pose proof (rnd _ _ P3) as E3. fold s in E3.
  assert (S' : - (41 / 10 * eps64 * (M * u)) <= s - (v' * m' + c) <= 41 / 10 * eps64 * (M * u)) by (unfold eps64 in *; lra).
  pose proof (rnd u u ltac:(apply Rabs_le; lra)) as E4. set (u' := to_double u) in *. pose proof tiny_1 as [_ t2]. assert (U' : u * (1 - 2 * eps64) <= u' <= u * (1 + 11 / 10 * eps64) /\ u * (1 - 11 / 10 * eps64) <= u') by (unfold eps64 in *; lra).
  assert (U1 : 0 < u') by (unfold eps64 in *; lra).
  assert (Q : Rabs (s * / u' - mixed v' m' c) <= 65 / 10 * eps64 * M).
  { replace (s * / u' - mixed v' m' c) with (((s - (v' * m' + c)) - mixed v' m' c * (u' - u)) * / u') by (unfold mixed, u; field; unfold u in *; lra).
    assert (X : Rabs (mixed v' m' c) <= 2 * M). { apply Rabs_le. unfold mixed, Rdiv. fold u. split; apply Rmult_le_reg_r with u; try lra; rewrite (Rmult_assoc _ (/ u)), Rinv_l by lra; lra. }
    apply abs_le in X. set (x := mixed v' m' c) in *. rewrite Rabs_mult, (Rabs_pos_eq (/ u')) by (left; now apply Rinv_0_lt_compat).
    assert (Y : - (22 / 10 * eps64 * (M * u)) <= x * (u' - u) <= 22 / 10 * eps64 * (M * u)).
    { assert (- (11 / 10 * eps64 * u) <= u' - u <= 11 / 10 * eps64 * u) by (unfold eps64 in *; lra). assert (0 <= 11 / 10 * eps64 * u) by (unfold eps64; lra). set (k := 11 / 10 * eps64 * u) in *.
      replace (22 / 10 * eps64 * (M * u)) with (2 * M * k) by (unfold k; field). nra. }
    apply Rmult_le_reg_r with u'; [exact U1|]. rewrite (Rmult_assoc _ (/ u')), Rinv_l, Rmult_1_r by lra. apply Rle_trans with (63 / 10 * eps64 * (M * u)); [apply Rabs_le; lra|].
    replace (65 / 10 * eps64 * M * u') with (65 / 10 * eps64 * (M * u')) by ring. assert (M * (u * (1 - 2 * eps64)) <= M * u') by (apply Rmult_le_compat_l; lra). unfold eps64 in *. lra. }
  assert (X : Rabs (mixed v' m' c) <= 2 * M). { apply Rabs_le. unfold mixed, Rdiv. fold u. split; apply Rmult_le_reg_r with u; try lra; rewrite (Rmult_assoc _ (/ u)), Rinv_l by lra; lra. }
  apply abs_le in X, Q. assert (Z : Rabs (s * / u') <= 21 / 10 * M) by (apply Rabs_le; unfold eps64 in *; lra). pose proof (rnd _ _ Z). apply Rabs_le. unfold eps64 in *. lra.
Qed.

(** ** One step *)
Section Step.
  Variables (span M : R).
  Hypothesis Hs : 1 <= span.
  Hypothesis Hspan : (span + 1) ^ 2 <= 2 ^ 48.
  Hypothesis HM : powerRZ 2 (-1000) <= M.
  Let W := (span + 1) / 2.
  Let f := old_wt_factor span.
  Let f' := @wt_factor R DA span.
  Let D := 22 * eps64 * (W * W).
  Let e := 75 * eps64 * (W * W) * M.
  Lemma W_1 : 1 <= W /\ W * W <= 70368744177664 /\ f = 1 - / W /\ W * (1 - f) = 1 /\ 0 <= f < 1.
  Proof.
    assert (W * W <= 70368744177664). { unfold W. rewrite (pow_IZR 2 48) in Hspan. change (IZR (2 ^ Z.of_nat 48)) with 281474976710656 in Hspan. cbn in Hspan. lra. }
    assert (1 <= W) by (unfold W; lra). assert (F : f = 1 - / W) by (unfold f, old_wt_factor, W; field; lra). split; [assumption|]. split; [assumption|]. split; [assumption|].
    split; [rewrite F; field; lra|]. rewrite F. assert (0 < / W <= 1) by (split; [apply Rinv_0_lt_compat; lra|rewrite <- Rinv_1; apply Rinv_le_contravar; lra]). lra.
  Qed.
  Lemma M_0 : 0 < M. Proof. eapply M_pos; eauto. Qed.
  Lemma D_small : 0 < D <= W. Proof. pose proof W_1 as (A & B & _). unfold D, eps64. split; [nra|]. assert (W <= 70368744177664 / W) by (apply Rmult_le_reg_r with W; [lra|]; unfold Rdiv; rewrite Rmult_assoc, Rinv_l by lra; lra).
    assert (WB : W <= 8388608). { destruct (Rle_lt_dec W 8388608); [assumption|]. exfalso. nra. } nra. Qed.
  Lemma e_small : 0 < e <= M. Proof. pose proof W_1 as (A & B & _). pose proof M_0. unfold e, eps64. split; [|]. - apply Rmult_lt_0_compat; nra. - replace M with (1 * M) at 2 by lra. apply Rmult_le_compat_r; lra. Qed.

  (** The decayed weight. *)
  Lemma decayed wt wt' : 0 <= wt <= W -> 0 <= wt' -> Rabs (wt' - wt) <= D -> 0 <= to_double (wt' * f') /\ Rabs (to_double (wt' * f') - wt * f) <= D - 3 * eps64 * W.
  Proof.
    intros Hw Hw' Hd. pose proof W_1 as (A & B & F & G & H). pose proof D_small as DS. destruct (factor_bounds span) as [FB _]. specialize (FB Hs). fold f' in FB.
    pose proof (factor_error span Hs) as FE. fold f f' in FE. apply abs_le in FE, Hd. split; [apply to_double_nonneg; nra|].
    assert (U : wt' <= 2 * W) by lra. assert (P : Rabs (wt' * f') <= 2 * W) by (apply Rabs_le; nra). pose proof (rnd _ _ P) as E. pose proof tiny_1 as [t0 t1].
    assert (K : - (f * D + 16 * eps64 * W) <= wt' * f' - wt * f <= f * D + 16 * eps64 * W).
    { replace (wt' * f' - wt * f) with (f * (wt' - wt) + wt' * (f' - f)) by ring. assert (- (f * D) <= f * (wt' - wt) <= f * D) by nra. assert (- (16 * eps64 * W) <= wt' * (f' - f) <= 16 * eps64 * W) by (unfold eps64 in *; nra). lra. }
    assert (DD : D - f * D = 22 * eps64 * W). { unfold D. replace (22 * eps64 * (W * W) - f * (22 * eps64 * (W * W))) with (22 * eps64 * W * (W * (1 - f))) by ring. rewrite G. ring. }
    apply Rabs_le. unfold eps64 in *. lra.
  Qed.
  Lemma counted v v' : 0 <= v -> v + 1 <= W -> 0 <= v' -> Rabs (v' - v) <= D - 3 * eps64 * W -> 1 <= to_double (v' + 1) /\ Rabs (to_double (v' + 1) - (v + 1)) <= D.
  Proof.
    intros Hv Hv1 Hv' Hd. pose proof W_1 as (A & B & _). pose proof D_small. split; [apply to_double_ge_double; [apply is_double_1|lra]|].
    apply abs_le in Hd. pose proof tiny_1 as [t0 t1]. assert (P : Rabs (v' + 1) <= 2 * W) by (apply Rabs_le; unfold eps64 in *; lra). pose proof (rnd _ _ P). apply Rabs_le. unfold eps64 in *. lra.
  Qed.
  (** The new average. *)
  Lemma mixed_exact v m c : 0 <= v -> (if Req_EM_T m c then m else (v * m + 1 * c) / (v + 1)) = mixed v m c.
  Proof. intros H. unfold mixed. destruct (Req_EM_T m c) as [->|]; [field; lra|]. now rewrite Rmult_1_l. Qed.
  Lemma mixed_range v m c : 0 <= v -> Rabs m <= M -> Rabs c <= M -> Rabs (mixed v m c) <= M.
  Proof.
    intros Hv Hm Hc. apply abs_le in Hm, Hc. pose proof M_0. assert (0 < / (v + 1)) by (apply Rinv_0_lt_compat; lra). apply Rabs_le. unfold mixed, Rdiv.
    split; apply Rmult_le_reg_r with (v + 1); try lra; rewrite (Rmult_assoc _ (/ (v + 1))), Rinv_l by lra; nra.
  Qed.
  Lemma mixed_close v v' m m' c : 0 <= v -> v + 1 <= W -> 0 <= v' -> Rabs (v' - v) <= D -> Rabs m <= M -> Rabs m' <= 2 * M -> Rabs c <= M -> Rabs (m' - m) <= e ->
    Rabs (mixed v' m' c - mixed v m c) <= e - 9 * eps64 * M.
  Proof.
    intros Hv Hv1 Hv' Hd Hm Hm' Hc He. pose proof M_0. pose proof W_1 as (A & B & _). pose proof D_small. pose proof e_small.
    replace (mixed v' m' c - mixed v m c) with ((v * (m' - m) + (m' - c) * (v' - v) / (v' + 1)) / (v + 1)) by (unfold mixed; field; lra).
    apply abs_le in Hd, Hm, Hm', Hc, He. assert (I : 0 < / (v + 1)) by (apply Rinv_0_lt_compat; lra). assert (I' : 0 < / (v' + 1) <= 1) by (split; [apply Rinv_0_lt_compat; lra|rewrite <- Rinv_1; apply Rinv_le_contravar; lra]).
    assert (P : - (3 * M * D) <= (m' - c) * (v' - v) <= 3 * M * D) by (split; nra).
    assert (Q : - (3 * M * D) <= (m' - c) * (v' - v) / (v' + 1) <= 3 * M * D). { unfold Rdiv. set (z := (m' - c) * (v' - v)) in *. assert (0 <= 3 * M * D) by nra. split; nra. }
    set (z := (m' - c) * (v' - v) / (v' + 1)) in *. assert (V : - (v * e) <= v * (m' - m) <= v * e) by nra.
    assert (T : v * e + 3 * M * D <= (e - 9 * eps64 * M) * (v + 1)).
    { assert (9 * eps64 * M * (v + 1) <= 9 * eps64 * M * (W * W)) by (apply Rmult_le_compat_l; [unfold eps64; lra|nra]). unfold e, D in *. unfold eps64 in *. nra. }
    apply Rabs_le. unfold Rdiv. split; apply Rmult_le_reg_r with (v + 1); try lra; rewrite (Rmult_assoc _ (/ (v + 1))), Rinv_l by lra; lra.
  Qed.
  Lemma mixed_double v' m' c : 0 <= v' -> Rabs m' <= 2 * M -> Rabs c <= M -> is_double c -> Rabs (@next_mean R DA v' m' c - mixed v' m' c) <= 9 * eps64 * M.
  Proof.
    intros Hv Hm Hc Dc. pose proof M_0. pose proof tiny_1 as [t0 _]. pose proof (tiny_M M 1 0 HM Nat.lt_0_1) as t1. unfold next_mean. change (@aeqb R DA m' c) with (if Req_EM_T m' c then true else false). destruct (Req_EM_T m' c) as [->|N].
    - unfold mixed. replace ((v' * c + c) / (v' + 1)) with c by (field; lra). rewrite Rminus_diag_eq, Rabs_R0 by reflexivity. unfold eps64. lra.
    - unfold adiv. cbn [aadd amul ainv a1 Arith_double]. rewrite Rmult_1_l, (to_double_id c Dc). now apply mix_rounded.
  Qed.

  (** ** The whole series *)
  Definition paired (s : option (R * R)) (s' : option (R * R)) : Prop :=
    match s, s' with
    | None, None => True
    | Some (m, wt), Some (m', wt') => 0 <= wt <= W /\ 0 <= wt' /\ Rabs (wt' - wt) <= D /\ Rabs m <= M /\ Rabs (m' - m) <= e
    | _, _ => False
    end.
  Lemma paired_step s s' x : (forall v, x = Fin v -> is_double v /\ Rabs v <= M) -> paired s s' -> paired (@ewma_step R Arith_R f s x) (@ewma_step R DA f' s' x).
  Proof.
    intros Hx P. pose proof M_0. pose proof W_1 as (A & B & F & G & H0). pose proof D_small. pose proof e_small.
    destruct s as [[m wt]|], s' as [[m' wt']|]; try contradiction.
    - destruct P as (Hw & Hw' & Hd & Hm & He). destruct (decayed wt wt' Hw Hw' Hd) as (V' & Vd). assert (V : 0 <= wt * f) by nra. assert (V1 : wt * f + 1 <= W). { assert (wt * f <= W * f) by nra. lra. }
      assert (Vd2 : Rabs (to_double (wt' * f') - wt * f) <= D) by (unfold eps64 in *; lra).
      destruct x as [c| | |]; try (cbn [ewma_step paired]; change (@amul R DA wt' f') with (to_double (wt' * f')); change (@amul R Arith_R wt f) with (wt * f); repeat split; auto; lra).
      destruct (Hx c eq_refl) as (Dc & Hc). cbn [ewma_step]. change (@amul R DA wt' f') with (to_double (wt' * f')). change (@amul R Arith_R wt f) with (wt * f). set (v := wt * f) in *. set (v' := to_double (wt' * f')) in *.
      cbn [paired]. rewrite mean_exact_step, mixed_exact by exact V. cbn [aadd Arith_R a1 Arith_double]. destruct (counted v v' V V1 V' Vd) as (C1 & C2).
      assert (Hm' : Rabs m' <= 2 * M) by (apply abs_le in Hm, He; apply Rabs_le; lra).
      pose proof (mixed_close v v' m m' c V V1 V' Vd2 Hm Hm' Hc He) as K. pose proof (mixed_double v' m' c V' Hm' Hc Dc) as L. pose proof (mixed_range v m c V Hm Hc).
      repeat split; try lra; auto. apply abs_le in K, L. apply Rabs_le. lra.
    - destruct x as [c| | |]; try exact I. destruct (Hx c eq_refl) as (Dc & Hc). cbn [ewma_step paired]. cbn [a1 Arith_R Arith_double]. repeat split; try lra; auto; rewrite Rminus_diag_eq, Rabs_R0 by reflexivity; lra.
  Qed.
  Lemma paired_scan l : held_below M l -> forall s s', paired s s' -> forall i x y, nth_error (scan_g (@ewma_step R DA f') (@ewma_out R) s' l) i = Some x ->
    nth_error (scan_g (@ewma_step R Arith_R f) (@ewma_out R) s l) i = Some y -> close_to e x y.
  Proof.
    induction l as [|z l IH]; intros Hl s s' P i x y Hx Hy; [destruct i; discriminate|]. cbn [scan_g] in Hx, Hy.
    assert (P' : paired (@ewma_step R Arith_R f s z) (@ewma_step R DA f' s' z)). { apply paired_step; [|exact P]. intros v ->. apply Hl. now left. }
    destruct i as [|i].
    - injection Hx as <-. injection Hy as <-. destruct (@ewma_step R Arith_R f s z) as [[m wt]|], (@ewma_step R DA f' s' z) as [[m' wt']|]; try contradiction; [|exact I]. cbn. apply P'.
    - apply (IH ltac:(intros v Hv; apply Hl; now right) _ _ P' i); assumption.
  Qed.
  Lemma average_bound l i x y : held_below M l -> nth_error (@ewma_double R DA span l) i = Some x -> nth_error (ewm_mean span l) i = Some y -> close_to (M * (span + 1) ^ 2 / 2 ^ 48) x y.
  Proof.
    intros Hl Hx Hy. rewrite <- ewma_run_eq, <- ewma_exact in Hy by exact Hs. unfold ewma_double in *. rewrite factor_exact in Hy. fold f in Hy. fold f' in Hx.
    pose proof (paired_scan l Hl None None I i x y Hx Hy) as C. destruct x, y; auto. cbn [close_to] in *. eapply Rle_trans; [exact C|]. pose proof M_0. unfold e, W.
    rewrite (pow_IZR 2 48). change (IZR (2 ^ Z.of_nat 48)) with 281474976710656. replace (75 * eps64 * ((span + 1) / 2 * ((span + 1) / 2)) * M) with (75 * eps64 / 4 * (M * (span + 1) ^ 2)) by field.
    assert (0 <= M * (span + 1) ^ 2) by (apply Rmult_le_pos; [lra|apply pow2_ge_0]). unfold eps64. lra.
  Qed.
End Step.
