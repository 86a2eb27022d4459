(** The exponentially weighted deviation in doubles: its distance from the exact one does not grow with the history. *)
From Coq Require Import Reals ZArith Lra Lia List String.
From Flocq.Core Require Raux Zaux.
From Verif Require Import Prelude PreludeFacts Num Series DailyVol_Model Feat_Model Ewm_Model Ewm_Proofs
  Double_Model Double_Spec Double_Proofs Double_Proofs2 Double_Bet_Proofs2 Double_Vpin_Model Double_Z_Model Double_Ewm_Model Double_Ewm_Proofs Double_Bound_Spec Double_Bound_Proofs Double_Ewm_Bound_Proofs.
Import ListNotations.
Local Open Scope R_scope.
Local Notation length := List.length.

Lemma square_close M e x x' : 0 < e <= M -> Rabs x <= 2 * M -> Rabs (x' - x) <= 21 / 10 * e -> Rabs (x' * x' - x * x) <= 13 * (e * M) /\ Rabs (x' * x') <= 17 * (M * M).
Proof.
  intros He Hx Hd. apply abs_le in Hx, Hd. assert (A : - (21 / 10 * e) <= x' - x <= 21 / 10 * e) by lra. assert (B : - (61 / 10 * M) <= x' + x <= 61 / 10 * M) by lra.
  assert (C : Rabs (x' - x) <= 21 / 10 * e) by (apply Rabs_le; lra). assert (D : Rabs (x' + x) <= 61 / 10 * M) by (apply Rabs_le; lra). assert (E : Rabs x' <= 41 / 10 * M) by (apply Rabs_le; lra).
  pose proof (Rabs_pos (x' - x)). pose proof (Rabs_pos (x' + x)). pose proof (Rabs_pos x'). split.
  - replace (x' * x' - x * x) with ((x' - x) * (x' + x)) by ring. rewrite Rabs_mult. apply Rle_trans with (21 / 10 * e * (61 / 10 * M)); [apply Rmult_le_compat; assumption|]. assert (0 <= e * M) by nra. lra.
  - rewrite Rabs_mult. apply Rle_trans with (41 / 10 * M * (41 / 10 * M)); [apply Rmult_le_compat; assumption|]. assert (0 <= M * M) by nra. lra.
Qed.

Lemma prod_abs a b x y : - a <= x <= a -> - b <= y <= b -> - (a * b) <= x * y <= a * b.
Proof. intros. assert (0 <= a) by lra. assert (0 <= b) by lra. split; nra. Qed.
Lemma scale_le k x y : 0 <= k -> x <= y -> x * k <= y * k. Proof. intros. now apply Rmult_le_compat_r. Qed.
Lemma scaled_down k z a : 0 <= a -> 0 < k <= 1 -> - a <= z <= a -> - a <= z * k <= a. Proof. intros. split; nra. Qed.

Lemma weights S T f : 1 / 3 <= f < 1 -> 1 <= S -> 1 <= T <= S -> T <= S * S ->
  1 <= T * (f * f) + 1 <= S * f + 1 /\ T * (f * f) + 1 <= (S * f + 1) * (S * f + 1) /\ f * (S * f + 1) <= (S * f + 1) * (S * f + 1) - (T * (f * f) + 1).
Proof.
  intros Hf HS HT HT2. assert (F : 0 <= f * f <= f) by (clear - Hf; nra). set (h := f * f) in *. assert (A : 0 <= T * h) by (apply Rmult_le_pos; lra). assert (B : T * h <= S * f) by (apply Rmult_le_compat; lra).
  assert (C : T * h <= S * S * h) by (apply scale_le; lra). assert (E : S * S * h = S * f * (S * f)) by (unfold h; ring). assert (G : 0 <= S * f) by (apply Rmult_le_pos; lra). rewrite E in C. set (x := S * f) in *.
  assert (I : f * (x + 1) <= f * (2 * S)). { apply Rmult_le_compat_l; [lra|]. assert (x <= S) by (unfold x; clear - Hf HS; nra). lra. }
  assert (J : f * (2 * S) = 2 * x) by (unfold x; ring). repeat split; try lra; replace ((x + 1) * (x + 1)) with (x * x + 2 * x + 1) by ring; lra.
Qed.

Section Var.
  Variables (span M : R).
  Hypothesis Hs2 : 2 <= span.
  Hypothesis Hs14 : span + 1 <= 16384.
  Hypothesis HM : powerRZ 2 (-500) <= M.
  Let W := (span + 1) / 2.
  Let f := old_wt_factor span.
  Let f' := @wt_factor R DA span.
  Let D := 22 * eps64 * (W * W).
  Let D2 := 46 * eps64 * (W * W).
  Let e := 75 * eps64 * (W * W) * M.
  Let MM := M * M.
  Let ec := 2100 * eps64 * (W * W * W) * MM.
  Lemma Hs : 1 <= span. Proof. lra. Qed.
  Lemma Hspan : (span + 1) ^ 2 <= 2 ^ 48.
  Proof. rewrite (pow_IZR 2 48). change (IZR (2 ^ Z.of_nat 48)) with 281474976710656. cbn. nra. Qed.
  Lemma HM0 : powerRZ 2 (-1000) <= M.
  Proof. eapply Rle_trans; [|exact HM]. rewrite <- !bpow2. apply Raux.bpow_le. lia. Qed.
  Lemma MM_0 : 0 < M /\ 0 < MM /\ powerRZ 2 (-1000) <= MM /\ tiny <= eps64 / 1000 * MM.
  Proof.
    assert (0 < M) by (eapply M_pos, HM0). assert (K : powerRZ 2 (-1000) <= MM).
    { unfold MM. replace (powerRZ 2 (-1000)) with (powerRZ 2 (-500) * powerRZ 2 (-500)) by (rewrite <- powerRZ_add by lra; reflexivity). assert (0 < powerRZ 2 (-500)) by (apply powerRZ_lt; lra). apply Rmult_le_compat; lra. }
    split; [assumption|]. split; [unfold MM; nra|]. split; [exact K|]. apply (tiny_M MM 1 0 K Nat.lt_0_1).
  Qed.
  Lemma W_b : 3 / 2 <= W <= 8192 /\ f = 1 - / W /\ W * (1 - f) = 1 /\ 1 / 3 <= f < 1 /\ W * W * W <= 549755813888 /\ W <= W * W /\ W * W <= W * W * W.
  Proof.
    assert (A : 3 / 2 <= W <= 8192) by (unfold W; lra). pose proof (W_1 span Hs Hspan) as (_ & _ & F & G & H). fold W f in F, G, H. repeat split; try lra; try nra.
  Qed.
  Lemma ec_small : 0 < ec <= MM.
  Proof. pose proof W_b as (A & _ & _ & _ & B & _). pose proof MM_0 as (_ & P & _). unfold ec, eps64. split; [apply Rmult_lt_0_compat; nra|]. replace MM with (1 * MM) at 2 by lra. apply Rmult_le_compat_r; lra. Qed.

  (** The sum of the squared weights. *)
  Definition g' : R := to_double (f' * f').
  Lemma g_error : 0 <= g' <= 1 /\ Rabs (g' - f * f) <= 20 * eps64.
  Proof.
    pose proof W_b as (_ & _ & _ & F & _). destruct (factor_bounds span) as [FB _]. specialize (FB Hs). fold f' in FB. pose proof (factor_error span Hs) as FE. fold f f' in FE. apply abs_le in FE.
    assert (P : 0 <= f' * f' <= 1) by nra. unfold g'. split; [split; [apply to_double_nonneg; lra|apply to_double_le_double; [apply is_double_1|lra]]|].
    pose proof (rnd (f' * f') 1 ltac:(apply Rabs_le; lra)) as E. pose proof tiny_1 as [t0 t1]. assert (K : - (16 * eps64) <= f' * f' - f * f <= 16 * eps64). { replace (f' * f' - f * f) with ((f' - f) * (f' + f)) by ring. unfold eps64 in *. nra. }
    apply Rabs_le. unfold eps64 in *. lra.
  Qed.
  Lemma squares t t' : 1 <= t <= W -> 1 <= t' -> Rabs (t' - t) <= D2 -> 1 <= to_double (to_double (t' * g') + 1) /\ Rabs (to_double (to_double (t' * g') + 1) - (t * (f * f) + 1)) <= D2.
  Proof.
    intros Ht Ht' Hd. pose proof W_b as (A & F & G & H & B & WW & _). pose proof g_error as (G0 & G1). pose proof tiny_1 as [t0 t1]. apply abs_le in Hd, G1.
    assert (D20 : 0 <= D2 <= W). { unfold D2, eps64. split; nra. } assert (U : t' <= 2 * W) by lra.
    assert (P1 : Rabs (t' * g') <= 2 * W) by (apply Rabs_le; nra). pose proof (rnd _ _ P1) as E1. assert (Q1 : 0 <= to_double (t' * g')) by (apply to_double_nonneg; nra). set (x := to_double (t' * g')) in *.
    assert (P2 : Rabs (x + 1) <= 3 * W) by (apply abs_le in P1; apply Rabs_le; unfold eps64 in *; lra). pose proof (rnd _ _ P2) as E2. split; [apply to_double_ge_double; [apply is_double_1|lra]|].
    assert (K : - (f * f * D2 + 40 * eps64 * W) <= t' * g' - t * (f * f) <= f * f * D2 + 40 * eps64 * W).
    { replace (t' * g' - t * (f * f)) with (f * f * (t' - t) + t' * (g' - f * f)) by ring. assert (0 <= f * f) by nra. set (h := f * f) in *. assert (- (h * D2) <= h * (t' - t) <= h * D2) by nra. assert (- (40 * eps64 * W) <= t' * (g' - h) <= 40 * eps64 * W) by (unfold eps64 in *; nra). lra. }
    assert (FF : f * f <= f) by nra. assert (DD : D2 - f * D2 = 46 * eps64 * W). { unfold D2. replace (46 * eps64 * (W * W) - f * (46 * eps64 * (W * W))) with (46 * eps64 * W * (W * (1 - f))) by ring. rewrite G. ring. }
    assert (f * f * D2 <= f * D2) by nra. apply Rabs_le. unfold eps64 in *. lra.
  Qed.

  (** The covariance. *)
  Definition squared (x y : R) : R := to_double (to_double (x - y) * to_double (x - y)).
  Lemma squared_close x x' y y' : Rabs x <= M -> Rabs y <= M -> Rabs (x' - x) <= e -> Rabs (y' - y) <= e -> Rabs (squared x' y' - (x - y) * (x - y)) <= 14 * (e * M) /\ 0 <= (x - y) * (x - y) <= 4 * MM.
  Proof.
    intros Hx Hy Ex Ey. pose proof MM_0 as (P & PM & _ & TM). pose proof (e_small span M Hs Hspan HM0) as ES. change (75 * eps64 * ((span + 1) / 2 * ((span + 1) / 2)) * M) with e in ES.
    pose proof W_b as (A & _). assert (E75 : 75 * eps64 * M <= e). { unfold e, eps64. assert (1 <= W * W) by nra. nra. }
    pose proof (tiny_M M 1 0 HM0 Nat.lt_0_1) as t1. apply abs_le in Hx, Hy, Ex, Ey. unfold squared.
    assert (P1 : Rabs (x' - y') <= 4 * M) by (apply Rabs_le; lra). pose proof (rnd _ _ P1) as E1. set (q := to_double (x' - y')) in *.
    assert (Q : Rabs (q - (x - y)) <= 21 / 10 * e) by (apply Rabs_le; unfold eps64 in *; lra).
    destruct (square_close M e (x - y) q ES ltac:(apply Rabs_le; lra) Q) as (S1 & S2). pose proof (rnd _ _ S2) as E2. fold MM in E2. apply abs_le in S1.
    assert (EM : 75 * eps64 * MM <= e * M) by (unfold MM; nra). split; [apply Rabs_le; unfold eps64 in *; lra|]. unfold MM. set (z := x - y) in *. assert (- (2 * M) <= z <= 2 * M) by (unfold z; lra). clear - H P. split; nra.
  Qed.
  Lemma cov_close v v' c c' q q' r r' : 0 <= v -> v + 1 <= W -> 0 <= v' -> Rabs (v' - v) <= D -> 0 <= c <= 4 * MM -> Rabs (c' - c) <= ec ->
    0 <= q <= 4 * MM -> 0 <= r <= 4 * MM -> Rabs (q' - q) <= 14 * (e * M) -> Rabs (r' - r) <= 14 * (e * M) -> is_double r' ->
    Rabs (to_double (to_double (to_double (v' * to_double (c' + q')) + r') * / to_double (v' + 1)) - mixed v (c + q) r) <= ec.
  Proof.
    intros Hv Hv1 Hv' Hd Hc Ec Hq Hr Eq Er Dr. pose proof MM_0 as (P & PM & PK & TM). pose proof ec_small as ECS. pose proof W_b as (A & F & G & H & B & WW & WWW).
    assert (EM : e * M = 75 * eps64 * (W * W) * MM) by (unfold e, MM; ring). rewrite EM in *. set (w2 := W * W) in *. set (w3 := w2 * W) in *.
    assert (E1 : 14 * (75 * eps64 * w2 * MM) <= MM). { unfold eps64. assert (w2 * MM <= 549755813888 * MM) by nra. lra. }
    set (dl := 14 * (75 * eps64 * w2 * MM)) in *. assert (DL : 1050 * eps64 * MM <= dl). { unfold dl, eps64. assert (MM <= w2 * MM) by nra. lra. }
    apply abs_le in Ec, Eq, Er. assert (P1 : Rabs (c' + q') <= 11 * MM) by (apply Rabs_le; lra). pose proof (rnd _ _ P1) as R1. set (t' := to_double (c' + q')) in *.
    assert (T : - (ec + 11 / 10 * dl) <= t' - (c + q) <= ec + 11 / 10 * dl) by (unfold eps64 in *; lra).
    assert (T0 : - (3 * MM) <= t' <= 12 * MM) by (unfold eps64 in *; lra).
    assert (MXR : Rabs (to_double (to_double (to_double (v' * t') + r') * / to_double (v' + 1)) - mixed v' t' r') <= 9 * eps64 * (6 * MM)).
    { apply mix_rounded; [lra|exact Hv'|apply Rabs_le; lra|apply Rabs_le; lra]. }
    assert (MX : Rabs (mixed v' t' r' - mixed v (c + q) r) <= ec - 9 * eps64 * (6 * MM)).
    { replace (mixed v' t' r' - mixed v (c + q) r) with (((r' - r) + v * (t' - (c + q)) + (t' - r') * (v' - v) / (v' + 1)) / (v + 1)) by (unfold mixed; field; lra).
      assert (I' : 0 < / (v' + 1) <= 1) by (split; [apply Rinv_0_lt_compat; lra|rewrite <- Rinv_1; apply Rinv_le_contravar; lra]). apply abs_le in Hd. assert (D0 : 0 < D) by (unfold D, eps64; fold w2; lra).
      assert (Y : - (20 * MM) <= t' - r' <= 20 * MM) by lra. assert (Z : - (20 * MM * D) <= (t' - r') * (v' - v) <= 20 * MM * D) by (apply prod_abs; lra).
      assert (Q : - (20 * MM * D) <= (t' - r') * (v' - v) / (v' + 1) <= 20 * MM * D). { apply scaled_down; [apply Rmult_le_pos; lra|exact I'|exact Z]. }
      set (z := (t' - r') * (v' - v) / (v' + 1)) in *. set (b := ec + 11 / 10 * dl) in *. assert (V : - (v * b) <= v * (t' - (c + q)) <= v * b) by (apply prod_abs; lra).
      assert (Tt : dl + v * b + 20 * MM * D <= (ec - 9 * eps64 * (6 * MM)) * (v + 1)).
      { assert (v * b = v * ec + v * (11 / 10 * dl)) by (unfold b; ring). assert (K1 : (v + 1) * dl <= W * dl) by (apply scale_le; unfold eps64 in *; lra). assert (K2 : W * dl = 1050 * eps64 * (w3 * MM)) by (unfold dl, w3; ring).
        assert (K3 : 20 * MM * D = 440 * eps64 * (w2 * MM)) by (unfold D; fold w2; ring). assert (K4 : w2 * MM <= w3 * MM) by (apply scale_le; lra). assert (K5 : (v + 1) * MM <= w3 * MM) by (apply scale_le; lra).
        assert (K6 : ec = 2100 * eps64 * (w3 * MM)) by (unfold ec; fold w2 w3; ring). assert (K7 : (ec - 9 * eps64 * (6 * MM)) * (v + 1) = v * ec + ec - 54 * eps64 * ((v + 1) * MM)) by ring.
        rewrite K7. assert (K8 : v * (11 / 10 * dl) + dl <= 11 / 10 * ((v + 1) * dl)) by lra. unfold eps64 in *. lra. }
      apply Rabs_le. unfold Rdiv. split; apply Rmult_le_reg_r with (v + 1); try lra; rewrite (Rmult_assoc _ (/ (v + 1))), Rinv_l by lra; lra. }
    apply abs_le in MX, MXR. apply Rabs_le. lra.
  Qed.
  Lemma cov_range v m c cur : 0 <= v -> 0 <= c <= 4 * MM -> Rabs m <= M -> Rabs cur <= M ->
    0 <= mixed v (c + (m - mixed v m cur) * (m - mixed v m cur)) ((cur - mixed v m cur) * (cur - mixed v m cur)) <= 4 * MM.
  Proof.
    intros Hv Hc Hm Hcur. pose proof MM_0 as (P & PM & _). set (x := cur - m). assert (X : 0 <= x * x <= 4 * MM). { apply abs_le in Hm, Hcur. assert (Hx : - (2 * M) <= x <= 2 * M) by (unfold x; lra). unfold MM. clear - Hx P. split; nra. }
    replace (mixed v (c + (m - mixed v m cur) * (m - mixed v m cur)) ((cur - mixed v m cur) * (cur - mixed v m cur))) with ((v * c + v * / (v + 1) * (x * x)) * / (v + 1)) by (unfold mixed, x; field; lra).
    assert (I : 0 < / (v + 1)) by (apply Rinv_0_lt_compat; lra). assert (J : 0 <= v * / (v + 1) <= 1). { split; [nra|]. apply Rmult_le_reg_r with (v + 1); [lra|]. rewrite Rmult_assoc, Rinv_l by lra. lra. }
    set (j := v * / (v + 1)) in *. assert (0 <= j * (x * x) <= 4 * MM) by nra. split; [apply Rmult_le_pos; nra|]. apply Rmult_le_reg_r with (v + 1); [lra|]. rewrite (Rmult_assoc _ (/ (v + 1))), Rinv_l by lra. nra.
  Qed.

  (** ** One step *)
  Record near (s s' : ecov R) : Prop := {
    n_old : e_old_wt s = e_sum_wt s; n_old' : e_old_wt s' = e_sum_wt s';
    n_wt : 1 <= e_sum_wt s <= W; n_wt' : 1 <= e_sum_wt s'; n_dwt : Rabs (e_sum_wt s' - e_sum_wt s) <= D;
    n_sq : 1 <= e_sum_wt2 s <= e_sum_wt s; n_sq2 : e_sum_wt2 s <= e_sum_wt s * e_sum_wt s; n_sq' : 1 <= e_sum_wt2 s'; n_dsq : Rabs (e_sum_wt2 s' - e_sum_wt2 s) <= D2;
    n_mean : Rabs (e_mean s) <= M; n_dmean : Rabs (e_mean s' - e_mean s) <= e;
    n_cov : 0 <= e_cov s <= 4 * MM; n_dcov : Rabs (e_cov s' - e_cov s) <= ec }.
  Definition later (s : ecov R) : Prop := f * e_sum_wt s <= e_sum_wt s * e_sum_wt s - e_sum_wt2 s.
  Lemma near_step s s' cur : is_double cur -> Rabs cur <= M -> near s s' -> exists t t', @ecov_step R Arith_R f (Some s) (Fin cur) = Some t /\ @ecov_step R DA f' (Some s') (Fin cur) = Some t' /\ near t t' /\ later t.
  Proof.
    intros Dc Hc [No No' Nw Nw' Ndw Ns Ns2 Ns' Nds Nm Ndm Nc Ndc]. pose proof MM_0 as (P & PM & _). pose proof W_b as (A & F & G & H & B & WW & WWW). pose proof ec_small.
    pose proof (e_small span M Hs Hspan HM0) as ES. change (75 * eps64 * ((span + 1) / 2 * ((span + 1) / 2)) * M) with e in ES. pose proof (D_small span Hs Hspan) as DS. change (22 * eps64 * ((span + 1) / 2 * ((span + 1) / 2))) with D in DS. change ((span + 1) / 2) with W in DS.
    destruct s as [m c S T o], s' as [m' c' S' T' o']. cbn [e_mean e_cov e_sum_wt e_sum_wt2 e_old_wt] in *. subst o o'.
    destruct (decayed span Hs Hspan S S' ltac:(unfold W in *; lra) ltac:(lra) Ndw) as (V' & Vd). fold f f' W D in V', Vd. change (22 * eps64 * (W * W)) with D in Vd.
    assert (V : 0 <= S * f) by (apply Rmult_le_pos; lra). assert (V1 : S * f + 1 <= W). { assert (S * f <= W * f) by (apply scale_le; lra). lra. } assert (Vd2 : Rabs (to_double (S' * f') - S * f) <= D) by (unfold eps64 in *; lra).
    destruct (counted span Hs Hspan (S * f) (to_double (S' * f')) V V1 V' Vd) as (C1 & C2). change (22 * eps64 * ((span + 1) / 2 * ((span + 1) / 2))) with D in C2.
    set (v := S * f) in *. set (v' := to_double (S' * f')) in *.
    assert (Hm' : Rabs m' <= 2 * M) by (apply abs_le in Nm, Ndm; apply Rabs_le; lra).
    pose proof (mixed_close span M Hs Hspan HM0 v v' m m' cur V V1 V' Vd2 Nm Hm' Hc Ndm) as K. pose proof (mixed_double M HM0 v' m' cur V' Hm' Hc Dc) as L. pose proof (mixed_range M HM0 v m cur V Nm Hc) as Rg.
    change (75 * eps64 * ((span + 1) / 2 * ((span + 1) / 2)) * M) with e in K. set (n := mixed v m cur) in *. set (n' := @next_mean R DA v' m' cur) in *.
    assert (Dn : Rabs (n' - n) <= e) by (apply abs_le in K, L; apply Rabs_le; lra).
    destruct (squared_close m m' n n' Nm Rg Ndm Dn) as (Q1 & Q2). destruct (squared_close cur cur n n' Hc Rg ltac:(rewrite Rminus_diag_eq, Rabs_R0 by reflexivity; lra) Dn) as (R1 & R2).
    pose proof (cov_close v v' c c' _ _ _ _ V V1 V' Vd2 Nc Ndc Q2 R2 Q1 R1 (to_double_is _)) as CV. pose proof (cov_range v m c cur V Nc Nm Hc) as CR. fold n in CR.
    destruct (squares T T' ltac:(lra) Ns' Nds) as (T1 & T2). destruct (weights S T f ltac:(lra) ltac:(lra) Ns Ns2) as (W1' & W2' & W3'). fold v in W1', W2', W3'.
    eexists {| e_mean := n; e_cov := mixed v (c + (m - n) * (m - n)) ((cur - n) * (cur - n)); e_sum_wt := v + 1; e_sum_wt2 := T * (f * f) + 1; e_old_wt := v + 1 |},
      {| e_mean := n'; e_cov := to_double (to_double (to_double (v' * to_double (c' + squared m' n')) + squared cur n') * / to_double (v' + 1)); e_sum_wt := to_double (v' + 1); e_sum_wt2 := to_double (to_double (T' * g') + 1); e_old_wt := to_double (v' + 1) |}.
    split; [|split; [|split]].
    - cbn [ecov_step e_old_wt e_mean e_cov e_sum_wt e_sum_wt2]. rewrite mean_exact_step. change (@amul R Arith_R S f) with v. rewrite (mixed_exact v m cur V). fold n.
      unfold adiv, asub, mixed, Rdiv, Rminus. cbn [aadd amul aopp ainv a1 Arith_R]. do 2 f_equal; ring.
    - cbn [ecov_step e_old_wt e_mean e_cov e_sum_wt e_sum_wt2]. change (@amul R DA S' f') with v'. fold n'. unfold squared, g', adiv, asub, Rminus. cbn [aadd amul aopp ainv a1 Arith_double].
      rewrite !Rmult_1_l, (to_double_id 1 is_double_1), (to_double_id (to_double _) (to_double_is _)). reflexivity.
    - constructor; cbn [e_mean e_cov e_sum_wt e_sum_wt2 e_old_wt]; auto; lra.
    - unfold later. cbn [e_sum_wt e_sum_wt2]. lra.
  Qed.

  (** ** The output *)
  Lemma later_out t t' : near t t' -> later t -> exists x y, @ecov_out R Arith_R (Some t) = Fin x /\ @ecov_out R DA (Some t') = Fin y /\ 0 <= x /\ Rabs y <= 31 * MM /\ Rabs (y - x) <= 25500 * eps64 * (W * W * W) * MM.
  Proof.
    intros [_ _ Nw Nw' Ndw Ns Ns2 Ns' Nds _ _ Nc Ndc] L. unfold later in L. pose proof MM_0 as (P & PM & _ & TM). pose proof W_b as (A & F & G & H & B & WW & WWW). pose proof ec_small as EC. pose proof tiny_1 as [t0 t1].
    destruct t as [m c S T o], t' as [m' c' S' T' o']. cbn [e_mean e_cov e_sum_wt e_sum_wt2 e_old_wt] in *.
    assert (WP : 1 <= W * W) by (clear - A; nra). assert (S2W : S * S <= W * W) by (apply Rmult_le_compat; lra). assert (DW : D * W = 22 * eps64 * (W * W * W)) by (unfold D; ring).
    assert (D0 : 0 < D <= W). { pose proof (D_small span Hs Hspan) as DS. change (22 * eps64 * ((span + 1) / 2 * ((span + 1) / 2))) with D in DS. exact DS. }
    assert (DW0 : 0 <= D * D <= D * W) by (split; [apply Rmult_le_pos; lra|apply Rmult_le_compat_l; lra]).
    apply abs_le in Ndw, Nds, Ndc. set (n := S * S) in *. set (d := n - T) in *.
    assert (Sf : S / 3 <= f * S) by (apply Rle_trans with (1 / 3 * S); [lra|apply scale_le; lra]). assert (Dd : S / 3 <= d) by lra. assert (N4 : n <= 4 * d) by (unfold d in *; lra).
    assert (Sq : - (66 * eps64 * (W * W * W)) <= S' * S' - n <= 66 * eps64 * (W * W * W)).
    { replace (S' * S' - n) with ((S' - S) * (S' + S)) by (unfold n; ring). replace (66 * eps64 * (W * W * W)) with (D * (3 * W)) by (rewrite Rmult_comm, Rmult_assoc, (Rmult_comm W), DW; ring). apply prod_abs; lra. }
    set (w2 := W * W) in *. set (w3 := w2 * W) in *.
    assert (Q1 : Rabs (S' * S') <= 4 * w2). { apply Rabs_le. assert (0 <= S' * S') by (apply Rmult_le_pos; lra). assert (S' * S' <= 2 * W * (2 * W)) by (apply Rmult_le_compat; lra). unfold w2. lra. }
    pose proof (rnd _ _ Q1) as R1. assert (n0 : 0 <= to_double (S' * S')) by (apply to_double_nonneg; apply Rmult_le_pos; lra). set (n' := to_double (S' * S')) in *. assert (N' : - (71 * eps64 * w3) <= n' - n <= 71 * eps64 * w3) by (unfold eps64 in *; lra).
    assert (D2w : D2 = 46 * eps64 * w2) by reflexivity. assert (Q2 : Rabs (n' + - T') <= 6 * w2) by (apply Rabs_le; unfold eps64 in *; lra). pose proof (rnd _ _ Q2) as R2. set (d' := to_double (n' + - T')) in *.
    assert (D' : - (124 * eps64 * w3) <= d' - d <= 124 * eps64 * w3) by (unfold d, eps64 in *; lra). assert (d0 : d / 2 <= d') by (unfold eps64 in *; lra). assert (d1 : 1 / 6 <= d') by lra.
    assert (K : 0 <= n / d <= 4). { assert (0 <= n) by (apply Rmult_le_pos; lra). split; [apply Rmult_le_pos; [assumption|left; apply Rinv_0_lt_compat; lra]|]. apply Rmult_le_reg_r with d; [lra|]. unfold Rdiv. rewrite Rmult_assoc, Rinv_l by lra. lra. }
    assert (K' : Rabs (n' * / d' - n / d) <= 3402 * eps64 * w3).
    { replace (n' * / d' - n / d) with (((n' - n) - n / d * (d' - d)) * / d') by (field; lra). set (k := n / d) in *. assert (Y : - (4 * (124 * eps64 * w3)) <= k * (d' - d) <= 4 * (124 * eps64 * w3)) by (apply prod_abs; lra).
      assert (I : 0 < / d' <= 6). { split; [apply Rinv_0_lt_compat; lra|]. replace 6 with (/ (1 / 6)) by field. apply Rinv_le_contravar; lra. }
      rewrite Rabs_mult, (Rabs_pos_eq (/ d')) by lra. replace (3402 * eps64 * w3) with (567 * eps64 * w3 * 6) by ring. apply Rmult_le_compat; [apply Rabs_pos|lra|apply Rabs_le; lra|lra]. }
    set (k := n / d) in *. apply abs_le in K'. assert (Q3 : Rabs (n' * / d') <= 5) by (apply Rabs_le; unfold eps64 in *; lra). pose proof (rnd _ _ Q3) as R3. set (k' := to_double (n' * / d')) in *.
    assert (Kd : - (3410 * eps64 * w3) <= k' - k <= 3410 * eps64 * w3) by (unfold eps64 in *; lra).
    assert (Pr : - (25450 * eps64 * (w3 * MM)) <= k' * c' - k * c <= 25450 * eps64 * (w3 * MM)).
    { replace (k' * c' - k * c) with ((k' - k) * c' + k * (c' - c)) by ring. assert (X1 : - (3410 * eps64 * w3 * (5 * MM)) <= (k' - k) * c' <= 3410 * eps64 * w3 * (5 * MM)) by (apply prod_abs; lra).
      assert (X2 : - (4 * ec) <= k * (c' - c) <= 4 * ec) by (apply prod_abs; lra). assert (X3 : ec = 2100 * eps64 * (w3 * MM)) by (unfold ec; fold w2 w3; ring). rewrite X3 in X2. replace (3410 * eps64 * w3 * (5 * MM)) with (17050 * eps64 * (w3 * MM)) in X1 by ring. unfold eps64 in *. lra. }
    assert (W3M : MM <= w3 * MM) by (apply Rle_trans with (1 * MM); [lra|apply scale_le; lra]).
    assert (Q4 : Rabs (k' * c') <= 30 * MM). { assert (X1 : - (5 * (5 * MM)) <= k' * c' <= 5 * (5 * MM)) by (apply prod_abs; unfold eps64 in *; lra). apply Rabs_le; lra. } pose proof (rnd _ _ Q4) as R4.
    exists (k * c), (to_double (k' * c')). split; [|split; [|split; [|split]]].
    - unfold ecov_out. cbn [e_sum_wt e_sum_wt2 e_cov]. unfold asub, adiv. cbn [aadd amul aopp ainv a0 Arith_R]. fold n. change (n + - T) with d. change (@altb R Arith_R 0 d) with (if Rlt_dec 0 d then true else false). destruct (Rlt_dec 0 d); [reflexivity|lra].
    - unfold ecov_out. cbn [e_sum_wt e_sum_wt2 e_cov]. unfold asub, adiv. cbn [aadd amul aopp ainv a0 Arith_double]. fold n'. fold d'. change (@altb R DA 0 d') with (if Rlt_dec 0 d' then true else false). destruct (Rlt_dec 0 d'); [reflexivity|lra].
    - apply Rmult_le_pos; lra.
    - apply abs_le in Q4. apply Rabs_le. unfold eps64 in *. lra.
    - replace (25500 * eps64 * w3 * MM) with (25500 * eps64 * (w3 * MM)) by ring. apply Rabs_le. unfold eps64 in *. lra.
  Qed.

  (** ** The whole series *)
  Lemma near_scan l : held_below M l -> (forall x, In x l -> exists c, x = Fin c) -> forall s s', near s s' -> forall i x y,
    nth_error (scan_g (@ecov_step R DA f') (@ecov_out R DA) (Some s') l) i = Some x -> nth_error (scan_g (@ecov_step R Arith_R f) (@ecov_out R Arith_R) (Some s) l) i = Some y ->
    exists a b, x = Fin a /\ y = Fin b /\ 0 <= b /\ Rabs a <= 31 * MM /\ Rabs (a - b) <= 25500 * eps64 * (W * W * W) * MM.
  Proof.
    induction l as [|z l IH]; intros Hl Hf s s' P i x y Hx Hy; [destruct i; discriminate|]. destruct (Hf z (or_introl eq_refl)) as (c & ->). destruct (Hl c (or_introl eq_refl)) as (Dc & Hc).
    destruct (near_step s s' c Dc Hc P) as (t & t' & E & E' & N & L). cbn [scan_g] in Hx, Hy. rewrite E in Hy. rewrite E' in Hx. destruct i as [|i].
    - injection Hx as <-. injection Hy as <-. destruct (later_out t t' N L) as (b & a & Eb & Ea & H0 & H1 & H2). exists a, b. repeat split; assumption.
    - apply (IH ltac:(intros v Hv; apply Hl; now right) ltac:(intros v Hv; apply Hf; now right) t t' N i x y Hx Hy).
  Qed.
  Lemma first_near c : is_double c -> Rabs c <= M -> near {| e_mean := c; e_cov := 0; e_sum_wt := 1; e_sum_wt2 := 1; e_old_wt := 1 |} {| e_mean := c; e_cov := 0; e_sum_wt := 1; e_sum_wt2 := 1; e_old_wt := 1 |}.
  Proof.
    intros Dc Hc. pose proof W_b as (A & _). pose proof MM_0 as (P & PM & _). pose proof ec_small. assert (0 < W * W) by nra.
    assert (0 < e) by (unfold e, eps64; apply Rmult_lt_0_compat; lra). assert (0 < D) by (unfold D, eps64; lra). assert (0 < D2) by (unfold D2, eps64; lra).
    constructor; cbn [e_mean e_cov e_sum_wt e_sum_wt2 e_old_wt]; rewrite ?Rminus_diag_eq, ?Rabs_R0 by reflexivity; lra.
  Qed.
  Lemma variance_rows l i x y : held_below M l -> (forall x, In x l -> exists c, x = Fin c) ->
    nth_error (@ewmvar_run R DA span l) i = Some x -> nth_error (@ewmvar_run R Arith_R span l) i = Some y ->
    (i = 0%nat /\ x = NaN /\ y = NaN) \/ exists a b, x = Fin a /\ y = Fin b /\ 0 <= b /\ Rabs a <= 31 * MM /\ Rabs (a - b) <= 25500 * eps64 * (W * W * W) * MM.
  Proof.
    intros Hl Hf Hx Hy. unfold ewmvar_run in *. rewrite factor_exact in Hy. fold f in Hy. fold f' in Hx. destruct l as [|z l]; [destruct i; discriminate|]. destruct (Hf z (or_introl eq_refl)) as (c & ->). destruct (Hl c (or_introl eq_refl)) as (Dc & Hc).
    cbn [scan_g ecov_step] in Hx, Hy. cbn [a0 a1 Arith_R Arith_double] in Hx, Hy. destruct i as [|i].
    - left. split; [reflexivity|]. injection Hx as <-. injection Hy as <-. unfold ecov_out. cbn [e_sum_wt e_sum_wt2 e_cov]. unfold asub. cbn [aadd amul aopp a0 Arith_R Arith_double].
      rewrite !Rmult_1_l, (to_double_id 1 is_double_1), Rplus_opp_r, (to_double_id 0 is_double_0). change (@altb R DA 0 0) with (if Rlt_dec 0 0 then true else false). change (@altb R Arith_R 0 0) with (if Rlt_dec 0 0 then true else false).
      destruct (Rlt_dec 0 0); [lra|]. split; reflexivity.
    - right. apply (near_scan l ltac:(intros v Hv; apply Hl; now right) ltac:(intros v Hv; apply Hf; now right) _ _ (first_near c Dc Hc) i x y Hx Hy).
  Qed.
  (** The root. *)
  Lemma root_close a b B : 0 <= b -> 0 <= a -> Rabs (a - b) <= B -> 0 < B -> Rabs (sqrt a - sqrt b) * sqrt b <= B /\ Rabs (sqrt a - sqrt b) ^ 2 <= B.
  Proof.
    intros Hb Ha Hd HB. pose proof (sqrt_pos a). pose proof (sqrt_pos b). pose proof (sqrt_sqrt a Ha) as Sa. pose proof (sqrt_sqrt b Hb) as Sb. set (x := sqrt a) in *. set (y := sqrt b) in *.
    assert (E : a - b = (x - y) * (x + y)) by (rewrite <- Sa, <- Sb; ring). rewrite E, Rabs_mult, (Rabs_pos_eq (x + y)) in Hd by lra. pose proof (Rabs_pos (x - y)) as Z. assert (Q : Rabs (x - y) <= x + y) by (apply Rabs_le; lra).
    split; [eapply Rle_trans; [|exact Hd]; apply Rmult_le_compat_l; lra|]. cbn. rewrite Rmult_1_r. eapply Rle_trans; [|exact Hd]. apply Rmult_le_compat_l; lra.
  Qed.
  Lemma deviation_rows l i x y : held_below M l -> (forall x, In x l -> exists c, x = Fin c) ->
    nth_error (@ewmstd_running R DA double_root span l) i = Some x -> nth_error (ewm_std span l) i = Some y ->
    (i = 0%nat /\ x = NaN /\ y = NaN) \/ exists a b, x = Fin a /\ y = Fin b /\ 0 <= a /\ 0 <= b /\
      Rabs (a - b) * b <= M ^ 2 * (span + 1) ^ 3 / 2 ^ 41 /\ Rabs (a - b) ^ 2 <= M ^ 2 * (span + 1) ^ 3 / 2 ^ 40.
  Proof.
    intros Hl Hf Hx Hy. rewrite <- ewmstd_run_eq, <- ewmstd_exact in Hy by exact Hs. unfold ewmstd_running in *. rewrite nth_error_map in Hx, Hy.
    destruct (nth_error (@ewmvar_run R DA span l) i) as [x0|] eqn:Ex; [|discriminate]. destruct (nth_error (@ewmvar_run R Arith_R span l) i) as [y0|] eqn:Ey; [|discriminate]. cbn [option_map] in Hx, Hy. injection Hx as <-. injection Hy as <-.
    destruct (variance_rows l i x0 y0 Hl Hf Ex Ey) as [(-> & -> & ->)|(a & b & -> & -> & Hb & Ha & Hd)]; [left; repeat split; reflexivity|right].
    pose proof MM_0 as (P & PM & _ & TM). pose proof W_b as (A & _ & _ & _ & B & WW & WWW). pose proof (tiny_M M 1 0 HM0 Nat.lt_0_1) as t1. pose proof tiny_1 as [t0 _].
    assert (W3 : W * W * W = (span + 1) ^ 3 / 8) by (unfold W; field). assert (WP : 1 <= W * W * W) by lra. set (w3 := W * W * W) in *. assert (W3M : MM <= w3 * MM) by (apply Rle_trans with (1 * MM); [lra|apply scale_le; lra]).
    assert (W3N : w3 * MM <= 549755813888 * MM) by (apply scale_le; lra).
    replace (25500 * eps64 * w3 * MM) with (25500 * eps64 * (w3 * MM)) in Hd by ring. set (k := w3 * MM) in *.
    set (a1 := if Rlt_dec a 0 then 0 else a). assert (A1 : 0 <= a1 <= 31 * MM /\ Rabs (a1 - b) <= 25500 * eps64 * k).
    { apply abs_le in Ha, Hd. unfold a1. destruct (Rlt_dec a 0); split; try lra; apply Rabs_le; unfold eps64 in *; lra. }
    assert (EZ : @zroot R DA double_root (Fin a) = Fin (to_double (sqrt a1))).
    { unfold a1. cbn [zroot]. change (@altb R DA a (@a0 R DA)) with (if Rlt_dec a 0 then true else false). destruct (Rlt_dec a 0); [|reflexivity]. rewrite sqrt_0, (to_double_id 0 is_double_0). reflexivity. }
    rewrite EZ. clear EZ. assert (EY : @zroot R Arith_R sqrt (Fin b) = Fin (sqrt b)). { cbn [zroot]. change (@altb R Arith_R b (@a0 R Arith_R)) with (if Rlt_dec b 0 then true else false). destruct (Rlt_dec b 0); [lra|reflexivity]. } rewrite EY.
    destruct A1 as (A1 & A2). assert (BB : 0 <= b <= 36 * MM) by (apply abs_le in A2; unfold eps64 in *; lra).
    assert (Sq36 : forall z, 0 <= z <= 36 * MM -> 0 <= sqrt z <= 6 * M). { intros z Hz. split; [apply sqrt_pos|]. replace (6 * M) with (sqrt (36 * MM)); [apply sqrt_le_1_alt; lra|]. replace (36 * MM) with ((6 * M) * (6 * M)) by (unfold MM; ring). apply sqrt_square. lra. }
    pose proof (Sq36 a1 ltac:(lra)) as Sa. pose proof (Sq36 b BB) as Sb. destruct (root_close a1 b (25500 * eps64 * k) ltac:(lra) ltac:(lra) A2 ltac:(unfold eps64; lra)) as (R1 & R2).
    pose proof (rnd (sqrt a1) (6 * M) ltac:(apply Rabs_le; lra)) as R3. pose proof (to_double_nonneg (sqrt a1) ltac:(lra)) as R0. set (x := sqrt a1) in *. set (y := sqrt b) in *. set (x' := to_double x) in *.
    assert (X : Rabs (x' - y) <= Rabs (x - y) + 7 * eps64 * M). { pose proof (Rabs_pos (x - y)). replace (x' - y) with ((x - y) + (x' - x)) by ring. eapply Rle_trans; [apply Rabs_triang|]. apply Rplus_le_compat_l. apply Rabs_le. unfold eps64 in *. lra. }
    assert (M3 : M ^ 2 * (span + 1) ^ 3 = 8 * k) by (unfold k; rewrite W3; unfold MM; field). rewrite M3. rewrite (pow_IZR 2 41), (pow_IZR 2 40). change (IZR (2 ^ Z.of_nat 41)) with 2199023255552. change (IZR (2 ^ Z.of_nat 40)) with 1099511627776.
    pose proof (Rabs_pos (x' - y)) as Z1. pose proof (Rabs_pos (x - y)) as Z2. set (q := Rabs (x' - y)) in *. set (p := Rabs (x - y)) in *. assert (EM : 0 <= eps64 * M) by (unfold eps64; lra).
    exists x', y. split; [reflexivity|]. split; [reflexivity|]. split; [exact R0|]. split; [lra|]. split.
    - fold q. apply Rle_trans with ((p + 7 * eps64 * M) * y); [apply scale_le; lra|]. rewrite Rmult_plus_distr_r. assert (7 * eps64 * M * y <= 7 * eps64 * M * (6 * M)) by (apply Rmult_le_compat_l; lra).
      replace (7 * eps64 * M * (6 * M)) with (42 * eps64 * MM) in H by (unfold MM; ring). unfold eps64 in *. lra.
    - fold q. apply Rle_trans with ((p + 7 * eps64 * M) ^ 2); [apply pow_incr; lra|]. apply Rle_trans with (2 * p ^ 2 + 2 * (7 * eps64 * M) ^ 2); [set (h := 7 * eps64 * M); pose proof (pow2_ge_0 (p - h)); cbn in *; lra|].
      replace ((7 * eps64 * M) ^ 2) with (49 * (eps64 * eps64) * MM) by (unfold MM; ring). unfold eps64 in *. lra.
  Qed.
End Var.
