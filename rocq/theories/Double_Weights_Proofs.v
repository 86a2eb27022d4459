(** The slope and the intercept of the time decay in double precision. *)
From Coq Require Import Reals ZArith QArith Qreals Lia Lra List Psatz.
From Flocq Require Import Core.
From Verif Require Import Prelude Double_Model Double_Spec Double_Proofs Double_Proofs2 Double_Boot_Proofs Double_Boot_Proofs2 Double_Boot_Proofs3 Rounding_Model Rounding_Proofs.
Import ListNotations.
Local Open Scope R_scope.

(** ** Roundings to one *)
Lemma compute_double q r : rounded q = r -> to_double (Q2R q) = Q2R r.
Proof. intros <-. symmetry. apply rounded_double. Qed.
Lemma just_above_one : to_double (1 + / 9007199254740992) = 1.
Proof.
  replace (1 + / 9007199254740992) with (Q2R (9007199254740993 # 9007199254740992)) by (unfold Q2R; cbn; lra).
  erewrite compute_double by (vm_compute; reflexivity). unfold Q2R. cbn. lra.
Qed.
Lemma just_below_one : to_double (1 - / 18014398509481984) = 1.
Proof.
  replace (1 - / 18014398509481984) with (Q2R (18014398509481983 # 18014398509481984)) by (unfold Q2R; cbn; lra).
  erewrite compute_double by (vm_compute; reflexivity). unfold Q2R. cbn. lra.
Qed.
Lemma around_one x : 1 - / 18014398509481984 <= x <= 1 + / 9007199254740992 -> to_double x = 1.
Proof.
  intros [L U]. apply to_double_le in L, U. rewrite just_below_one in L. rewrite just_above_one in U. lra.
Qed.

(** ** [(1 - y) + y] is 1 *)
Lemma one_minus_exact y : is_double y -> / 2 <= y < 9007199254740992 -> is_double (1 - y).
Proof.
  intros D [L U]. pose proof (proj1 (is_double_format y) D) as F. apply is_double_format.
  set (e := cexp radix2 double_format y). 
  assert (He : (-53 <= e <= 0)%Z).
  { unfold e, cexp, double_format, FLT_exp. assert (0 <= mag radix2 y <= 53)%Z as Hm; [|lia].
    split.
    - apply mag_ge_bpow. rewrite Rabs_pos_eq by lra. change (bpow radix2 (0 - 1)) with (/ 2). lra.
    - apply mag_le_bpow; [lra|]. rewrite Rabs_pos_eq by lra. change (bpow radix2 53) with 9007199254740992. lra. }
  set (m := Ztrunc (scaled_mantissa radix2 double_format y)).
  assert (Ey : y = IZR m * bpow radix2 e) by exact F.
  assert (E1 : 1 = IZR (2 ^ (- e)) * bpow radix2 e).
  { rewrite pow2_IZR by lia. rewrite <- bpow_plus. replace (- e + e)%Z with 0%Z by lia. reflexivity. }
  apply generic_format_FLT. exists (Float radix2 (2 ^ (- e) - m) e).
  - unfold F2R. cbn [Fnum Fexp]. rewrite minus_IZR, Rmult_minus_distr_r. rewrite <- Ey, <- E1. reflexivity.
  - cbn [Fnum]. change (radix2 ^ 53)%Z with (2 ^ 53)%Z.
    pose proof (bpow_gt_0 radix2 e) as Pe.
    assert (Hm : (0 < m < 2 ^ 53)%Z).
    { split; apply lt_IZR.
      - apply Rmult_lt_reg_r with (bpow radix2 e); auto. rewrite Rmult_0_l, <- Ey. lra.
      - pose proof (scaled_mantissa_lt_bpow radix2 double_format y) as H. fold e in H.
        rewrite (scaled_mantissa_generic _ _ _ F) in H. fold m in H. eapply Rle_lt_trans; [apply Rle_abs|]. eapply Rlt_le_trans; [exact H|].
        change (IZR (2 ^ 53)) with (bpow radix2 53). apply bpow_le. unfold e, cexp, double_format, FLT_exp. lia. }
    assert (Hp : (0 < 2 ^ (- e) <= 2 ^ 53)%Z) by (split; [apply Z.pow_pos_nonneg; lia|apply Z.pow_le_mono_r; lia]).
    lia.
  - cbn [Fexp]. lia.
Qed.
Lemma one_minus_small y : is_double y -> 0 <= y < / 2 -> Rabs (to_double (1 - y) - (1 - y)) <= / 18014398509481984.
Proof.
  intros D [L U]. destruct (Req_dec y 0) as [->|Hy].
  { rewrite Rminus_0_r, (to_double_id 1 is_double_1), Rminus_eq_0, Rabs_R0. lra. }
  eapply Rle_trans; [apply error_le_half_ulp; typeclasses eauto|].
  rewrite ulp_neq_0 by lra. unfold cexp, double_format, FLT_exp.
  assert (mag radix2 (1 - y) = 0%Z :> Z) as ->.
  { apply mag_unique. rewrite Rabs_pos_eq by lra. change (bpow radix2 (0 - 1)) with (/ 2). change (bpow radix2 0) with 1. lra. }
  change (bpow radix2 (Z.max (0 - 53) (-1074))) with (/ 9007199254740992). lra.
Qed.
Lemma complement_one y : is_double y -> 0 <= y < 9007199254740992 -> to_double (to_double (1 - y) + y) = 1.
Proof.
  intros D [L U]. destruct (Rlt_dec y (/ 2)) as [S|S].
  - pose proof (one_minus_small y D (conj L S)) as E. apply Rabs_le_inv in E. apply around_one. lra.
  - rewrite (to_double_id (1 - y)) by (apply one_minus_exact; auto; lra). replace (1 - y + y) with 1 by lra. apply to_double_id, is_double_1.
Qed.

(** ** The slope *)
Definition steep (c : R) : R := if Rlt_dec c 0 then / (1 + c) else 1 - c.
Definition slope (c T : R) : R := if Rlt_dec c 0 then to_double (1 / to_double (to_double (c + 1) * T)) else to_double (to_double (1 - c) / T).
Definition intercept (c T : R) : R := to_double (1 - to_double (slope c T * T)).

Lemma sum_rel x y : is_double x -> is_double y -> 0 < x + y -> rel eps64 (to_double (x + y)) (x + y).
Proof.
  intros Dx Dy P. pose proof (error_sum x y Dx Dy) as E. rewrite (Rabs_pos_eq (x + y)) in E by lra. apply Rabs_le_inv in E. split; auto. lra.
Qed.
Lemma rel_scale d x y k : 0 < k -> rel d x y -> rel d (x * k) (y * k).
Proof. intros K (P & L & U). split; [nra|]. split; nra. Qed.
Lemma below_one c : is_double c -> c < 1 -> / 18014398509481984 <= 1 - c.
Proof.
  intros D L. destruct (Rle_dec c (/ 2)); [lra|]. pose proof (gap c 1 D is_double_1 ltac:(lra) L) as G.
  assert (c / M53 = c * / 9007199254740991) as E by (unfold M53, Rdiv; reflexivity). rewrite E in G. lra.
Qed.
Section Slope.
  Variables c T : R.
  Hypothesis Dc : is_double c.
  Hypothesis Hc : -1 + / 4503599627370496 <= c <= 1.
  Hypothesis HT : / 9007199254740992 <= T <= 9007199254740992.     (* 2^-53, 2^53 *)

  Lemma Tpos : 0 < T. Proof. lra. Qed.
  Lemma small_normal x : / 1000000000000000000000000000000000000000000000000000000000000 <= x -> bpow radix2 (-1022) <= x.
  Proof.
    intros H. apply Rle_trans with (bpow radix2 (-200)); [apply bpow_le; lia|]. eapply Rle_trans; [|exact H].
    change (bpow radix2 (-200)) with (/ IZR (2 ^ 200)). apply Rinv_le_contravar; [lra|]. apply IZR_le. vm_compute. discriminate.
  Qed.

  Lemma slope_rel : c < 1 -> rel (5 * eps64) (slope c T) (steep c / T).
  Proof.
    intros L. pose proof Tpos as PT. unfold slope, steep. destruct (Rlt_dec c 0) as [N|N].
    - assert (R1 : rel eps64 (to_double (c + 1)) (c + 1)) by (apply sum_rel; auto; [apply is_double_1|lra]).
      assert (R2 : rel eps64 (to_double (c + 1) * T) ((c + 1) * T)) by now apply rel_scale.
      assert (B1 : / 4503599627370496 <= c + 1 <= 1) by lra.
      assert (B2 : / 4503599627370496 * / 9007199254740992 <= (c + 1) * T <= 9007199254740992) by (split; [apply Rmult_le_compat; lra|nra]).
      assert (B3 : / 40564819207303340847894502572032 * / 2 <= to_double (c + 1) * T <= 18014398509481984).
      { destruct R2 as (_ & L2 & U2). unfold eps64 in *. split; nra. }
      assert (R3 : rel eps64 (to_double (to_double (c + 1) * T)) (to_double (c + 1) * T)) by (apply double_rel, small_normal; lra).
      assert (R4 : rel (2 * eps64 + eps64 * eps64) (to_double (to_double (c + 1) * T)) ((c + 1) * T)).
      { eapply rel_weaken; [|eapply rel_trans; [| |exact R3|exact R2]]; unfold eps64; lra. }
      set (d := to_double (to_double (c + 1) * T)) in *.
      assert (R5 : rel (5 / 2 * eps64) (1 / d) (1 / ((c + 1) * T))).
      { eapply rel_weaken; [|eapply rel_div; [| |apply (rel_refl 1); lra|exact R4]]; unfold eps64; lra. }
      assert (Bd : / 81129638414606681695789005144064 * / 2 <= d <= 36028797018963968).
      { destruct R3 as (_ & L2 & U2). unfold eps64 in *. split; nra. }
      assert (R6 : rel eps64 (to_double (1 / d)) (1 / d)).
      { apply double_rel, small_normal. unfold Rdiv. rewrite Rmult_1_l. apply Rinv_le_contravar; lra. }
      replace (/ (1 + c) / T) with (1 / ((c + 1) * T)) by (field; lra).
      eapply rel_weaken; [|eapply rel_trans; [| |exact R6|exact R5]]; unfold eps64; lra.
    - assert (R1 : rel eps64 (to_double (1 - c)) (1 - c)) by (apply (sum_rel 1 (- c)); [apply is_double_1|now apply is_double_opp|lra]).
      pose proof (below_one c Dc L) as B1.
      assert (PI : 0 < / T) by now apply Rinv_0_lt_compat.
      assert (R2 : rel eps64 (to_double (1 - c) / T) ((1 - c) / T)) by now apply rel_scale.
      assert (B2 : / 9007199254740992 <= / T) by (apply Rinv_le_contravar; lra).
      assert (B3 : / 18014398509481984 * / 9007199254740992 <= (1 - c) / T) by (unfold Rdiv; apply Rmult_le_compat; lra).
      assert (R3 : rel eps64 (to_double (to_double (1 - c) / T)) (to_double (1 - c) / T)).
      { apply double_rel, small_normal. destruct R2 as (_ & L2 & _). unfold eps64 in *. nra. }
      eapply rel_weaken; [|eapply rel_trans; [| |exact R3|exact R2]]; unfold eps64; lra.
  Qed.
  Lemma slope_one : c = 1 -> slope c T = 0.
  Proof.
    intros ->. unfold slope. destruct (Rlt_dec 1 0); [lra|]. replace (1 - 1) with 0 by lra. rewrite to_double_0. unfold Rdiv.
    rewrite Rmult_0_l. apply to_double_0.
  Qed.
  Lemma slope_double : is_double (slope c T).
  Proof. unfold slope. destruct (Rlt_dec c 0); apply to_double_is. Qed.
  Lemma steep_bounds : 0 <= steep c <= 4503599627370496 /\ (c < 1 -> / 18014398509481984 <= steep c) /\ (0 <= c -> steep c <= 1).
  Proof.
    unfold steep. destruct (Rlt_dec c 0).
    - assert (1 <= / (1 + c) <= 4503599627370496).
      { split; [rewrite <- Rinv_1 at 1|rewrite <- (Rinv_inv 4503599627370496)]; apply Rinv_le_contravar; lra. }
      repeat split; try lra.
    - repeat split; try lra. now apply below_one.
  Qed.
  Lemma slope_nonneg : 0 <= slope c T.
  Proof.
    destruct (Rle_lt_or_eq_dec c 1 (proj2 Hc)) as [L|L].
    - destruct (slope_rel L) as (P & B & _). unfold eps64 in *. nra.
    - rewrite slope_one by auto. lra.
  Qed.
  Lemma last_rel : c < 1 -> rel (7 * eps64) (to_double (slope c T * T)) (steep c).
  Proof.
    intros L. pose proof Tpos as PT. assert (R1 : rel (5 * eps64) (slope c T * T) (steep c)).
    { replace (steep c) with (steep c / T * T) by (field; lra). apply rel_scale; auto. now apply slope_rel. }
    destruct steep_bounds as (_ & B & _). specialize (B L).
    assert (R2 : rel eps64 (to_double (slope c T * T)) (slope c T * T)).
    { apply double_rel, small_normal. destruct R1 as (_ & L1 & _). unfold eps64 in *. nra. }
    eapply rel_weaken; [|eapply rel_trans; [| |exact R2|exact R1]]; unfold eps64; lra.
  Qed.
  Lemma last_bounds : 0 <= to_double (slope c T * T) < 9007199254740992.
  Proof.
    pose proof Tpos as PT. pose proof slope_nonneg as PS. split; [apply to_double_nonneg; nra|].
    destruct (Rle_lt_or_eq_dec c 1 (proj2 Hc)) as [L|L].
    - destruct (last_rel L) as (_ & _ & U). destruct steep_bounds as ((P & B) & _). unfold eps64 in *. nra.
    - rewrite slope_one by auto. rewrite Rmult_0_l, to_double_0. lra.
  Qed.
  Lemma newest_one : to_double (intercept c T + to_double (slope c T * T)) = 1.
  Proof. unfold intercept. apply complement_one; [apply to_double_is|apply last_bounds]. Qed.

  Lemma last_le_one : 0 <= c -> to_double (slope c T * T) <= 1.
  Proof.
    intros N. pose proof Tpos as PT. destruct (Rle_lt_or_eq_dec c 1 (proj2 Hc)) as [L|L].
    2: { rewrite slope_one by auto. rewrite Rmult_0_l, to_double_0. lra. }
    rewrite <- just_above_one. apply to_double_le. unfold slope. destruct (Rlt_dec c 0); [lra|].
    set (a := to_double (1 - c)).
    assert (Da : is_double a) by apply to_double_is.
    assert (a <= 1) as A1 by (apply to_double_le_double; [apply is_double_1|lra]).
    pose proof (below_one c Dc L) as B1.
    assert (/ 36028797018963968 <= a) as A0.
    { destruct (sum_rel 1 (- c) is_double_1 (is_double_opp c Dc) ltac:(lra)) as (_ & L1 & _). change (1 + - c) with (1 - c) in L1. fold a in L1. unfold eps64 in *. nra. }
    assert (B2 : / 9007199254740992 <= / T) by (apply Rinv_le_contravar; lra).
    assert (R3 : rel eps64 (to_double (a / T)) (a / T)).
    { apply double_rel, small_normal. apply Rle_trans with (/ 36028797018963968 * / 9007199254740992); [lra|]. unfold Rdiv. apply Rmult_le_compat; lra. }
    destruct R3 as (_ & _ & U). apply (Rmult_le_compat_r T) in U; [|lra].
    replace (a / T * (1 + eps64) * T) with (a * (1 + eps64)) in U by (field; lra). unfold eps64 in *. nra.
  Qed.
  Lemma intercept_nonneg : 0 <= c -> 0 <= intercept c T.
  Proof. intros N. pose proof (last_le_one N). unfold intercept. apply to_double_nonneg. lra. Qed.
End Slope.

(** ** The weight of a cumulative uniqueness *)
Definition clip (v : R) : R := if Rlt_dec v 0 then 0 else v.
Definition weight (c T x : R) : R := clip (to_double (intercept c T + to_double (slope c T * x))).

Lemma clip_le a b : a <= b -> clip a <= clip b.
Proof. intros. unfold clip. destruct (Rlt_dec a 0), (Rlt_dec b 0); lra. Qed.
Lemma clip_max v : clip v = Rmax 0 v.
Proof. unfold clip. destruct (Rlt_dec v 0); [rewrite Rmax_left|rewrite Rmax_right]; lra. Qed.
Lemma clip_double v : is_double v -> is_double (clip v).
Proof. unfold clip. destruct (Rlt_dec v 0); auto using is_double_0. Qed.

Section Weight.
  Variables c T : R.
  Hypothesis Dc : is_double c.
  Hypothesis Hc : -1 + / 4503599627370496 <= c <= 1.
  Hypothesis HT : / 9007199254740992 <= T <= 9007199254740992.

  Lemma weight_double x : is_double (weight c T x).
  Proof. apply clip_double, to_double_is. Qed.
  Lemma weight_le x x' : x <= x' -> weight c T x <= weight c T x'.
  Proof.
    intros L. pose proof (slope_nonneg c T Dc Hc HT). apply clip_le, to_double_le, Rplus_le_compat_l, to_double_le, Rmult_le_compat_l; auto.
  Qed.
  Lemma weight_newest : weight c T T = 1.
  Proof. unfold weight. rewrite newest_one by auto. unfold clip. destruct (Rlt_dec 1 0); lra. Qed.
  Lemma weight_range x : x <= T -> 0 <= weight c T x <= 1.
  Proof.
    intros L. split; [unfold weight, clip; destruct (Rlt_dec _ 0); lra|]. rewrite <- weight_newest. now apply weight_le.
  Qed.
  Lemma weight_no_decay x : c = 1 -> weight c T x = 1.
  Proof.
    intros E. unfold weight, intercept. rewrite (slope_one c T) by auto. rewrite !Rmult_0_l, to_double_0, Rminus_0_r, (to_double_id 1 is_double_1), Rplus_0_r.
    rewrite (to_double_id 1 is_double_1). unfold clip. destruct (Rlt_dec 1 0); lra.
  Qed.

  Lemma product_rel x : c < 1 -> / 9007199254740992 <= x -> rel (7 * eps64) (to_double (slope c T * x)) (steep c * (x / T)).
  Proof.
    intros L Hx. pose proof (Tpos T HT) as PT. assert (R1 : rel (5 * eps64) (slope c T * x) (steep c * (x / T))).
    { replace (steep c * (x / T)) with (steep c / T * x) by (field; lra). apply rel_scale; [lra|]. now apply slope_rel. }
    destruct (steep_bounds c Dc Hc) as (_ & B & _). specialize (B L).
    assert (B2 : / 9007199254740992 <= / T) by (apply Rinv_le_contravar; lra).
    assert (B3 : / 9007199254740992 * / 9007199254740992 <= x / T) by (unfold Rdiv; apply Rmult_le_compat; lra).
    assert (B4 : / 18014398509481984 * (/ 9007199254740992 * / 9007199254740992) <= steep c * (x / T)) by (apply Rmult_le_compat; lra).
    assert (R2 : rel eps64 (to_double (slope c T * x)) (slope c T * x)).
    { apply double_rel, small_normal. destruct R1 as (_ & L1 & _). unfold eps64 in *. nra. }
    eapply rel_weaken; [|eapply rel_trans; [| |exact R2|exact R1]]; unfold eps64; lra.
  Qed.
  Lemma weight_positive x : 0 <= c -> / 9007199254740992 <= x -> 0 < weight c T x.
  Proof.
    intros N Hx. destruct (Rle_lt_or_eq_dec c 1 (proj2 Hc)) as [L|L]; [|rewrite weight_no_decay by auto; lra].
    pose proof (product_rel x L Hx) as R. apply rel_pos in R; [|unfold eps64; lra].
    pose proof (intercept_nonneg c T Dc Hc HT N) as I.
    assert (0 < to_double (intercept c T + to_double (slope c T * x))).
    { apply sum_pos; [apply to_double_is|apply to_double_is|lra]. }
    unfold weight, clip. destruct (Rlt_dec _ 0); lra.
  Qed.

  (** ** Accuracy *)
  Lemma weight_accuracy x u d : 0 <= d <= / 8 -> / 9007199254740992 <= x -> x <= T -> rel d (x / T) u -> u <= 1 ->
    Rabs (weight c T x - Rmax 0 (1 - steep c * (1 - u))) <= steep c * (d + 30 * eps64) + 10 * eps64.
  Proof.
    intros Hd Hx Hx' R Hu. destruct (Rle_lt_or_eq_dec c 1 (proj2 Hc)) as [L|L].
    2: { rewrite weight_no_decay by auto. assert (steep c = 0) as -> by (unfold steep; destruct (Rlt_dec c 0); lra).
         rewrite !Rmult_0_l, Rminus_0_r, Rmax_right by lra. rewrite Rminus_eq_0, Rabs_R0. unfold eps64. lra. }
    unfold weight. rewrite clip_max.
    assert (Lip : forall a b, Rabs (Rmax 0 a - Rmax 0 b) <= Rabs (a - b)).
    { intros a b. unfold Rmax. destruct (Rle_dec 0 a), (Rle_dec 0 b); unfold Rabs; repeat destruct (Rcase_abs _); lra. }
    eapply Rle_trans; [apply Lip|].
    pose proof (product_rel x L Hx) as RP. pose proof (last_rel c T Dc Hc HT L) as RL.
    destruct (steep_bounds c Dc Hc) as ((_ & _) & B & _). specialize (B L).
    set (S := steep c) in *. set (p := to_double (slope c T * x)) in *. unfold intercept in *. set (y := to_double (slope c T * T)) in *.
    assert (Dp : is_double p) by apply to_double_is. assert (Dy : is_double y) by apply to_double_is.
    pose proof (error_diff 1 y is_double_1 Dy) as EK. set (k := to_double (1 - y)) in *.
    assert (Dk : is_double k) by apply to_double_is.
    pose proof (error_sum k p Dk Dp) as EV. set (v := to_double (k + p)) in *.
    destruct R as (Pu & Lu & Uu). destruct RP as (PP & LP & UP). destruct RL as (_ & LL & UL).
    pose proof (Tpos T HT) as PT. assert (X1 : 0 < x / T <= 1).
    { split; [apply Rdiv_lt_0_compat; lra|]. apply Rmult_le_reg_r with T; auto. unfold Rdiv. rewrite Rmult_assoc, Rinv_l by lra. lra. }
    set (z := x / T) in *.
    assert (EZ : Rabs (z - u) <= d) by (apply Rabs_le; nra).
    assert (PS : 0 < S) by lra.
    assert (Y : Rabs (y - S) <= 7 * eps64 * S) by (apply Rabs_le; lra).
    assert (PZ : Rabs (p - S * z) <= 7 * eps64 * S).
    { apply Rabs_le. assert (0 <= S * z <= S) by nra. pose proof eps64_pos. nra. }
    assert (SZ : Rabs (S * z - S * u) <= S * d).
    { rewrite <- Rmult_minus_distr_l, Rabs_mult, (Rabs_pos_eq S) by lra. apply Rmult_le_compat_l; lra. }
    pose proof eps64_pos as HE.
    assert (Y1 : Rabs (1 - y) <= 1 + 2 * S).
    { apply Rabs_le. apply Rabs_le_inv in Y. nra. }
    assert (K : Rabs (k - (1 - y)) <= eps64 * (1 + 2 * S)) by (eapply Rle_trans; [exact EK|apply Rmult_le_compat_l; lra]).
    assert (KP : Rabs (k + p) <= 2 + 5 * S).
    { apply Rabs_le. apply Rabs_le_inv in Y, PZ, K, Y1. assert (0 <= S * z <= S) by nra.
      assert (eps64 * (1 + 2 * S) <= / 2 * (1 + 2 * S)) by (apply Rmult_le_compat_r; lra). assert (eps64 * S <= / 1000 * S) by (apply Rmult_le_compat_r; lra). lra. }
    assert (V : Rabs (v - (k + p)) <= eps64 * (2 + 5 * S)) by (eapply Rle_trans; [exact EV|apply Rmult_le_compat_l; lra]).
    replace (v - (1 - S * (1 - u))) with ((v - (k + p)) + (k - (1 - y)) - (y - S) + (p - S * z) + (S * z - S * u)) by ring.
    apply Rabs_le_inv in V, K, Y, PZ, SZ. apply Rabs_le. assert (0 <= eps64 * S) by nra. lra.
  Qed.
End Weight.
