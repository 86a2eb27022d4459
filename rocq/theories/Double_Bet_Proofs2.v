(** Discretised bet sizes in double precision. *)
From Coq Require Import Reals ZArith Lia Lra List Psatz.
From Flocq Require Import Core.
From Verif Require Import Num Series Bet_Model Bet_Spec Bet_Proofs Double_Model Double_Spec Double_Proofs Double_Proofs2
  Double_Bet_Model Double_Bet_Spec Double_Bet_Proofs.
Import ListNotations.
Local Open Scope R_scope.

Definition thousandths (v : R) : R := to_double (IZR (rint (to_double (v * 1000))) / 1000).
Definition grid (step x : R) : R := to_double (IZR (rint (to_double (x / step))) * step).
Definition ddisc (step x : R) : R := clip (thousandths (grid step x)).

Lemma discretise_double_fin step x : step <> 0 -> discretise_value_double step (Fin x) = Fin (ddisc step x).
Proof.
  intros Hs. unfold discretise_value_double. cbn [ediv aeqb Arith_double a0]. destruct (Req_EM_T step 0); [easy|].
  unfold adiv. cbn [amul ainv Arith_double round0 emul round3_double]. cbv zeta. unfold ddisc, clip, thousandths, grid.
  change (x * / step) with (x / step). set (d := to_double (IZR _ / 1000)). clearbody d.
  cbn [eltb altb Arith_R]. destruct (Rlt_dec 1 d); cbn [eltb altb Arith_R].
  - destruct (Rlt_dec 1 (-1)); [lra|reflexivity].
  - destruct (Rlt_dec d (-1)); reflexivity.
Qed.
Lemma ddisc_range step x : -1 <= ddisc step x <= 1.
Proof. apply clip_range. Qed.
Lemma ddisc_double step x : is_double (ddisc step x).
Proof.
  unfold ddisc, clip. destruct (Rlt_dec 1 _); [apply is_double_1|]. destruct (Rlt_dec _ (-1)); [apply is_double_m1|apply to_double_is].
Qed.
Lemma thousandths_mono x y : x <= y -> thousandths x <= thousandths y.
Proof.
  intros H. apply to_double_le. apply Rmult_le_compat_r; [lra|]. apply IZR_le, rint_mono, to_double_le. lra.
Qed.
Lemma grid_mono step x y : 0 < step -> x <= y -> grid step x <= grid step y.
Proof.
  intros Hs H. apply to_double_le. apply Rmult_le_compat_r; [lra|]. apply IZR_le, rint_mono, to_double_le.
  apply Rmult_le_compat_r; auto. left. now apply Rinv_0_lt_compat.
Qed.
Lemma ddisc_mono step x y : 0 < step -> x <= y -> ddisc step x <= ddisc step y.
Proof. intros. now apply clip_mono, thousandths_mono, grid_mono. Qed.
Lemma ddisc_opp step x : step <> 0 -> ddisc step (- x) = - ddisc step x.
Proof.
  intros Hs. unfold ddisc, grid, thousandths. replace (- x / step) with (- (x / step)) by (field; auto).
  rewrite to_double_opp, rint_opp, opp_IZR. rewrite Ropp_mult_distr_l_reverse, to_double_opp, Ropp_mult_distr_l_reverse, to_double_opp, rint_opp, opp_IZR.
  replace (- IZR (rint (to_double (to_double (IZR (rint (to_double (x / step))) * step) * 1000))) / 1000)
    with (- (IZR (rint (to_double (to_double (IZR (rint (to_double (x / step))) * step) * 1000))) / 1000)) by lra.
  now rewrite to_double_opp, clip_opp.
Qed.

(** ** Errors *)
Lemma tiny_small : tiny <= eps64 / 1000000.
Proof.
  destruct tiny_pos as [_ H]. eapply Rle_trans; [exact H|]. unfold eps64.
  replace (bpow radix2 (-200)) with (bpow radix2 (-53) * bpow radix2 (-147)) by (rewrite <- bpow_plus; reflexivity).
  replace (bpow radix2 (-53)) with (/ 9007199254740992) by (cbn; lra).
  assert (bpow radix2 (-147) <= bpow radix2 (-20)) as B by (apply bpow_le; lia).
  replace (bpow radix2 (-20)) with (/ 1048576) in B by (cbn; lra). lra.
Qed.
Lemma abs_le x b : Rabs x <= b -> - b <= x <= b.
Proof. unfold Rabs. destruct (Rcase_abs x); lra. Qed.
Lemma err x b : Rabs x <= b -> - (eps64 * (b + 1 / 1000000)) <= to_double x - x <= eps64 * (b + 1 / 1000000).
Proof.
  intros H. pose proof tiny_small. pose proof eps64_pos. apply abs_le. eapply Rle_trans; [apply error_any|]. nra.
Qed.

(** The grid point nearest to [x], up to rounding. *)
Lemma point step x : 0 < step -> Rabs (IZR (rint (to_double (x / step))) * step - x) <= step / 2 + eps64 * (Rabs x + step / 1000000).
Proof.
  intros Hs. destruct (rint_ok (to_double (x / step))) as [H1 _]. pose proof (error_any (x / step)) as H2. pose proof tiny_small.
  set (q := to_double (x / step)) in *. clearbody q. set (m := IZR (rint q)) in *. clearbody m.
  assert (Ex : x = x / step * step) by (field; lra). set (r := x / step) in *. clearbody r. subst x.
  rewrite Rabs_mult, (Rabs_pos_eq step) by lra.
  replace (m * step - r * step) with ((m - r) * step) by lra. rewrite Rabs_mult, (Rabs_pos_eq step) by lra.
  replace (step / 2 + eps64 * (Rabs r * step + step / 1000000)) with ((1 / 2 + (eps64 * Rabs r + eps64 / 1000000)) * step) by lra.
  apply Rmult_le_compat_r; [lra|]. replace (m - r) with ((q - r) - (q - m)) by lra.
  eapply Rle_trans; [apply Rabs_triang|]. rewrite Rabs_Ropp. lra.
Qed.
Lemma ddisc_near step x : 0 < step < 1 -> -1 <= x <= 1 -> Rabs (ddisc step x - x) <= step / 2 + 1 / 2000 + 1 / 562949953421312.
Proof.
  intros Hs Hx. unfold ddisc. apply clip_near; auto. unfold thousandths, grid. pose proof (point step x ltac:(lra)) as P.
  pose proof eps64_pos as He. assert (Rabs x <= 1) as Ax by (apply Rabs_le; lra).
  set (q := IZR (rint (to_double (x / step))) * step) in *. clearbody q. apply abs_le in P.
  assert (Rabs q <= 2) as Hq by (apply Rabs_le; nra). pose proof (err q 2 Hq) as E1. set (a := to_double q) in *. clearbody a.
  assert (Rabs (a * 1000) <= 3000) as Ha. { apply Rabs_le. apply abs_le in Hq. nra. }
  pose proof (err _ _ Ha) as E2. set (w := to_double (a * 1000)) in *. clearbody w.
  destruct (rint_ok w) as [E3 _]. set (k := IZR (rint w)) in *. clearbody k. apply abs_le in E3.
  assert (Rabs (k / 1000) <= 4) as Hk. { apply Rabs_le. apply abs_le in Ha. nra. }
  pose proof (err _ _ Hk) as E4. set (v := to_double (k / 1000)) in *. clearbody v. apply Rabs_le. unfold eps64 in *.
  assert (Rabs x + step / 1000000 <= 2) as Hxs by lra. assert (0 <= Rabs x + step / 1000000) by (pose proof (Rabs_pos x); lra). lra.
Qed.

(** ** Steps in thousandths *)
Section Decimal.
  Variable j : Z.
  Hypothesis Hj : (0 < j < 1000)%Z.
  Let step := to_double (IZR j / 1000).
  Lemma step_err : - (eps64 * (IZR j / 1000 + 1 / 1000000)) <= step - IZR j / 1000 <= eps64 * (IZR j / 1000 + 1 / 1000000).
  Proof. apply err. assert (0 < IZR j) by (apply IZR_lt; lia). rewrite Rabs_pos_eq; lra. Qed.
  Lemma j_bounds : 1 <= IZR j <= 999.
  Proof. split; apply IZR_le; lia. Qed.
  Lemma step_bounds : 9 / 10000 < step < 1.
  Proof. pose proof step_err as H. pose proof j_bounds. unfold eps64 in H. lra. Qed.

  (** Multiples of the step are close to the decimal ones. *)
  Lemma multiple_err m : Rabs (IZR m) <= 2000 -> Rabs (IZR m * step - IZR (m * j) / 1000) <= eps64 * (Rabs (IZR (m * j) / 1000) + 1 / 500).
  Proof.
    intros Hm. pose proof step_err as H. pose proof j_bounds as J. pose proof eps64_pos as He. rewrite mult_IZR.
    replace (IZR m * step - IZR m * IZR j / 1000) with (IZR m * (step - IZR j / 1000)) by lra.
    replace (IZR m * IZR j / 1000) with (IZR m * (IZR j / 1000)) by lra. rewrite !Rabs_mult. rewrite (Rabs_pos_eq (IZR j / 1000)) by lra.
    assert (Rabs (step - IZR j / 1000) <= eps64 * (IZR j / 1000 + 1 / 1000000)) as S by (apply Rabs_le; lra).
    pose proof (Rabs_pos (IZR m)) as Pm. set (a := Rabs (IZR m)) in *. clearbody a.
    apply Rle_trans with (a * (eps64 * (IZR j / 1000 + 1 / 1000000))); [apply Rmult_le_compat_l; auto|]. nra.
  Qed.
  Lemma decimal_value m : Rabs (IZR m) <= 2000 -> Rabs (IZR m * step) <= 2 -> thousandths (to_double (IZR m * step)) = to_double (IZR (m * j) / 1000).
  Proof.
    intros Hm Hq. pose proof (multiple_err m Hm) as E0. unfold thousandths. rewrite (rint_near _ (m * j)); auto.
    pose proof eps64_pos as He. pose proof (err _ _ Hq) as E1. set (a := to_double (IZR m * step)) in *. clearbody a. apply abs_le in Hq.
    set (q := IZR m * step) in *. clearbody q. assert (-3 <= a <= 3) as Ha by (unfold eps64 in *; lra).
    assert (Rabs (a * 1000) <= 3000) as Ha' by (apply Rabs_le; lra). pose proof (err _ _ Ha') as E2. set (w := to_double (a * 1000)) in *. clearbody w.
    set (t := IZR (m * j)) in *. clearbody t.
    assert (Rabs (t / 1000) <= 3) as Ht.
    { pose proof (Rabs_triang_inv (t / 1000) (t / 1000 - q)) as T. replace (t / 1000 - (t / 1000 - q)) with q in T by lra. rewrite (Rabs_minus_sym (t / 1000) q) in T.
      assert (Rabs q <= 2) by (apply Rabs_le; lra). unfold eps64 in *. lra. }
    apply abs_le in E0. pose proof (Rabs_pos (t / 1000)). apply Rabs_def1; unfold eps64 in *; lra.
  Qed.

  Lemma index_bounds x : -1 <= x <= 1 -> Rabs (IZR (rint (to_double (x / step)))) <= 2000 /\ Rabs (IZR (rint (to_double (x / step))) * step) <= 2.
  Proof.
    intros Hx. pose proof step_bounds as Hs. pose proof (point step x ltac:(lra)) as P. set (m := IZR (rint _)) in *. clearbody m.
    assert (Rabs x <= 1) as Ax by (apply Rabs_le; lra). pose proof eps64_pos as He. apply abs_le in P. pose proof (Rabs_pos x) as Px.
    assert (0 <= Rabs x + step / 1000000 <= 2) as B by lra. assert (eps64 * (Rabs x + step / 1000000) <= 1 / 1000) as B' by (unfold eps64; lra).
    assert (- (1501 / 1000) <= m * step <= 1501 / 1000) as Q by lra.
    split; [|apply Rabs_le; lra].
    apply Rabs_le. split; apply Rnot_lt_le; intros C; nra.
  Qed.

  Lemma ddisc_decimal x : -1 <= x <= 1 -> exists m : Z,
    ddisc step x = clip (to_double (IZR (m * j) / 1000)) /\ Rabs (IZR (m * j) / 1000 - x) <= IZR j / 2000 + 1 / 1125899906842624 /\
    m = rint (to_double (x / step)).
  Proof.
    intros Hx. exists (rint (to_double (x / step))). destruct (index_bounds x Hx) as [B1 B2]. unfold ddisc, grid. rewrite (decimal_value _ B1 B2).
    split; auto. split; auto. pose proof step_bounds as Hs. pose proof (point step x ltac:(lra)) as P. pose proof (multiple_err _ B1) as E. pose proof step_err as SE.
    set (m := rint (to_double (x / step))) in *. clearbody m. set (q := IZR m * step) in *. clearbody q. set (t := IZR (m * j)) in *. clearbody t.
    assert (Rabs x <= 1) as Ax by (apply Rabs_le; lra). pose proof j_bounds as J. pose proof (Rabs_pos x).
    assert (Rabs (t / 1000) <= 3) as Ht.
    { pose proof (Rabs_triang_inv (t / 1000) (t / 1000 - q)) as T. replace (t / 1000 - (t / 1000 - q)) with q in T by lra. rewrite (Rabs_minus_sym (t / 1000) q) in T.
      unfold eps64 in *. lra. }
    pose proof (Rabs_pos (t / 1000)). apply abs_le in E, P. apply Rabs_le. unfold eps64 in *. lra.
  Qed.

  (** Discretising twice changes nothing. *)
  Lemma ddisc_repeat x : -1 <= x <= 1 -> ddisc step (ddisc step x) = ddisc step x.
  Proof.
    intros Hx. pose proof step_bounds as Hs. destruct (ddisc_decimal x Hx) as (m & E & _ & Em).
    destruct (index_bounds x Hx) as [B1 B2]. rewrite <- Em in *.
    destruct (Z_lt_le_dec 1000 (m * j)) as [L|L].
    { assert (ddisc step x = 1) as E1.
      { rewrite E. assert (1 <= to_double (IZR (m * j) / 1000)) as G.
        { apply to_double_ge_double; [apply is_double_1|]. assert (1000 < IZR (m * j)) by (apply IZR_lt; lia). lra. }
        unfold clip. destruct (Rlt_dec 1 _); auto. destruct (Rlt_dec _ (-1)); lra. }
      rewrite E1. pose proof (ddisc_mono step x 1 ltac:(lra) ltac:(lra)). pose proof (ddisc_range step 1). lra. }
    destruct (Z_lt_le_dec (m * j) (-1000)) as [L'|L'].
    { assert (ddisc step x = -1) as E1.
      { rewrite E. assert (to_double (IZR (m * j) / 1000) <= -1) as G.
        { apply to_double_le_double; [apply is_double_m1|]. assert (IZR (m * j) < -1000) by (apply IZR_lt; lia). lra. }
        unfold clip. destruct (Rlt_dec 1 _); [lra|]. destruct (Rlt_dec _ (-1)); lra. }
      rewrite E1. pose proof (ddisc_mono step (-1) x ltac:(lra) ltac:(lra)). pose proof (ddisc_range step (-1)). lra. }
    assert (-1 <= IZR (m * j) / 1000 <= 1) as T.
    { assert (-1000 <= IZR (m * j)) by (apply IZR_le; lia). assert (IZR (m * j) <= 1000) by (apply IZR_le; lia). lra. }
    assert (ddisc step x = to_double (IZR (m * j) / 1000)) as E1.
    { rewrite E. assert (-1 <= to_double (IZR (m * j) / 1000) <= 1).
      { split; [apply to_double_ge_double; [apply is_double_m1|lra]|apply to_double_le_double; [apply is_double_1|lra]]. }
      unfold clip. destruct (Rlt_dec 1 _); [lra|]. destruct (Rlt_dec _ (-1)); [lra|reflexivity]. }
    rewrite E1. set (v := to_double (IZR (m * j) / 1000)).
    assert (rint (to_double (v / step)) = m) as R1.
    { apply rint_near. pose proof (multiple_err m B1) as M. assert (Rabs (IZR (m * j) / 1000) <= 1) as T' by (apply Rabs_le; lra).
      pose proof (err _ _ T') as V. fold v in V. clearbody v. apply abs_le in M.
      pose proof (Rabs_pos (IZR (m * j) / 1000)) as Pt. set (t := IZR (m * j) / 1000) in *. clearbody t.
      assert (Rabs (v / step - IZR m) <= 1 / 1000) as D.
      { assert (Ev : v = v / step * step) by (field; lra). set (r := v / step) in *. clearbody r.
        assert (- (1 / 1000000000) <= (r - IZR m) * step <= 1 / 1000000000) as Q by (rewrite Rmult_minus_distr_r, <- Ev; unfold eps64 in *; lra).
        apply Rabs_le. split; apply Rnot_lt_le; intros C; nra. }
      apply abs_le in D. assert (Rabs (v / step) <= 2001) as A by (apply abs_le in B1; apply Rabs_le; lra).
      pose proof (err _ _ A) as W. apply Rabs_def1; unfold eps64 in *; lra. }
    unfold ddisc, grid. rewrite R1, (decimal_value m B1 B2). fold v in E1 |- *. pose proof (ddisc_range step x) as D. rewrite E1 in D. unfold clip.
    destruct (Rlt_dec 1 v); [lra|]. destruct (Rlt_dec v (-1)); [lra|reflexivity].
  Qed.
End Decimal.
