(** Facts about rounding to doubles. *)
From Coq Require Import Reals ZArith Lia Lra.
From Flocq Require Import Core.
From Flocq.Prop Require Import Relative Plus_error.
From Verif Require Import Num Double_Model Double_Spec.
Local Open Scope R_scope.

#[global] Instance double_valid : Valid_exp double_format.
Proof. unfold double_format. apply FLT_exp_valid. reflexivity. Qed.
#[global] Instance single_valid : Valid_exp single_format.
Proof. unfold single_format. apply FLT_exp_valid. reflexivity. Qed.

Lemma bpow2 e : bpow radix2 e = powerRZ 2 e.
Proof. rewrite bpow_powerRZ. reflexivity. Qed.

Lemma is_double_format x : is_double x <-> generic_format radix2 double_format x.
Proof.
  unfold double_format. split.
  - intros (m & e & E & Hm & He). apply generic_format_FLT. exists (Float radix2 m e); auto.
    unfold F2R. cbn. now rewrite bpow2.
  - intros H. apply FLT_format_generic in H; [|reflexivity]. destruct H as [[m e] E Hm He]. cbn in *.
    exists m, e. repeat split; auto. rewrite E. unfold F2R. cbn. now rewrite bpow2.
Qed.
Lemma to_double_is x : is_double (to_double x).
Proof. apply is_double_format. apply generic_format_round; typeclasses eauto. Qed.
Lemma to_double_nearest x : nearest x (to_double x).
Proof.
  split; [apply to_double_is|]. intros z Hz. apply is_double_format in Hz.
  destruct (round_N_pt radix2 double_format (fun z => negb (Z.even z)) x) as [_ H]. apply H in Hz. exact Hz.
Qed.
Lemma to_double_id x : is_double x -> to_double x = x.
Proof. intros H. apply round_generic; [typeclasses eauto|]. now apply is_double_format. Qed.
Lemma to_double_le x y : x <= y -> to_double x <= to_double y.
Proof. apply round_le; typeclasses eauto. Qed.
Lemma to_double_ge_double x y : is_double x -> x <= y -> x <= to_double y.
Proof. intros H L. rewrite <- (to_double_id x H). now apply to_double_le. Qed.
Lemma to_double_le_double x y : is_double y -> x <= y -> to_double x <= y.
Proof. intros H L. rewrite <- (to_double_id y H). now apply to_double_le. Qed.
Lemma to_double_opp x : to_double (- x) = - to_double x.
Proof. unfold to_double. now rewrite round_NE_opp. Qed.
Lemma is_double_IZR z : (Z.abs z <= 2 ^ 53)%Z -> is_double (IZR z).
Proof.
  intros H. destruct (Z.eq_dec (Z.abs z) (2 ^ 53)) as [E|E].
  - exists (Z.sgn z), 53%Z. split; [|split; [lia|lia]].
    change (powerRZ 2 53) with (2 ^ 53)%R.
    assert (2 ^ 53 = IZR (2 ^ 53))%R as -> by (rewrite (pow_IZR 2 53); reflexivity).
    rewrite <- mult_IZR. f_equal. lia.
  - exists z, 0%Z. cbn. split; [lra|lia].
Qed.
Lemma is_double_0 : is_double 0.
Proof. apply (is_double_IZR 0). lia. Qed.
Lemma is_double_1 : is_double 1.
Proof. apply (is_double_IZR 1). lia. Qed.
Lemma is_double_opp x : is_double x -> is_double (- x).
Proof. intros (m & e & -> & Hm & He). exists (- m)%Z, e. rewrite opp_IZR. repeat split; try lia. lra. Qed.

(** ** Quotients of doubles are on the right side of 1 *)

Definition M53 : R := 9007199254740991.
Lemma ulp_bound p : is_double p -> 0 < p -> p <= M53 * ulp radix2 double_format p.
Proof.
  intros Hd Hp. apply is_double_format in Hd. rewrite ulp_neq_0 by lra.
  rewrite Hd at 1. unfold F2R. cbn [Fnum Fexp]. apply Rmult_le_compat_r; [apply bpow_ge_0|].
  unfold M53. apply IZR_le. apply (Z.lt_le_pred _ (2 ^ 53)).
  pose proof (scaled_mantissa_lt_bpow radix2 double_format p) as H.
  assert (bpow radix2 (mag radix2 p - cexp radix2 double_format p) <= IZR (2 ^ 53)) as Hb.
  { change (IZR (2 ^ 53)) with (bpow radix2 53). apply bpow_le. unfold cexp, double_format, FLT_exp. lia. }
  apply lt_IZR. rewrite <- scaled_mantissa_generic by exact Hd.
  eapply Rle_lt_trans; [apply Rle_abs|]. eapply Rlt_le_trans; [apply H|exact Hb].
Qed.
Lemma gap p q : is_double p -> is_double q -> 0 < p -> p < q -> p + p / M53 <= q.
Proof.
  intros Hp Hq Lp L. pose proof (ulp_bound p Hp Lp) as HU. apply is_double_format in Hp, Hq.
  pose proof (succ_le_lt radix2 double_format p q Hp Hq L) as HS. rewrite succ_eq_pos in HS by lra.
  enough (p / M53 <= ulp radix2 double_format p) by lra.
  apply Rmult_le_reg_l with M53; [unfold M53; lra|]. unfold Rdiv. rewrite <- Rmult_assoc, (Rmult_comm M53 p), Rmult_assoc.
  rewrite Rinv_r by (unfold M53; lra). lra.
Qed.

Lemma quotient_above p q : is_double p -> is_double q -> 0 < p -> p < q -> 1 < to_double (q / p).
Proof.
  intros Hp Hq Lp L. pose proof (gap p q Hp Hq Lp L) as HG.
  assert (1 + / M53 <= q / p) as Hx.
  { apply Rmult_le_reg_r with p; auto. unfold Rdiv. rewrite Rmult_assoc, Rinv_l, Rmult_1_r by lra. unfold Rdiv in HG. lra. }
  set (x := q / p) in *. set (u := / 9007199254740992).
  assert (Hu : 0 < u < / M53).
  { unfold u, M53. split; [apply Rinv_0_lt_compat; lra|]. apply Rinv_lt_contravar; lra. }
  assert (Hd : is_double (1 + 2 * u)).
  { exists (2 ^ 52 + 1)%Z, (-52)%Z. split; [|split; lia]. unfold u. rewrite <- bpow2.
    change (bpow radix2 (-52)) with (/ 4503599627370496). change (2 ^ 52 + 1)%Z with 4503599627370497%Z. change (2 ^ 53 - 1)%Z with 9007199254740991%Z. lra. }
  destruct (Rle_lt_dec (1 + 2 * u) x) as [Hle|Hlt].
  - apply Rlt_le_trans with (1 + 2 * u); [lra|]. now apply to_double_ge_double.
  - destruct (to_double_nearest x) as [_ HN]. specialize (HN _ Hd). rewrite (Rabs_pos_eq (1 + 2 * u - x)) in HN by lra.
    destruct (Rlt_le_dec 1 (to_double x)) as [|Hn]; auto. exfalso. rewrite Rabs_left1 in HN by lra. lra.
Qed.
Lemma quotient_below p q : is_double p -> is_double q -> 0 < p -> 0 < q -> q < p -> to_double (q / p) < 1.
Proof.
  intros Hp Hq Lp Lq L. pose proof (gap q p Hq Hp Lq L) as HG.
  set (u := / 9007199254740992).
  assert (Hd : is_double (1 - u)).
  { exists (2 ^ 53 - 1)%Z, (-53)%Z. split; [|split; lia]. unfold u. rewrite <- bpow2.
    change (bpow radix2 (-53)) with (/ 9007199254740992). change (2 ^ 52 + 1)%Z with 4503599627370497%Z. change (2 ^ 53 - 1)%Z with 9007199254740991%Z. lra. }
  assert (0 < u) by (unfold u; apply Rinv_0_lt_compat; lra).
  apply Rle_lt_trans with (1 - u); [|lra]. apply to_double_le_double; auto.
  apply Rmult_le_reg_r with p; auto. unfold Rdiv. rewrite Rmult_assoc, Rinv_l, Rmult_1_r by lra.
  (* q <= (1 - u) p follows from q (1 + 1/M) <= p and (1 - u)(1 + 1/M) = 1 *)
  assert (E : (1 - u) * (1 + / M53) = 1) by (unfold u, M53; field; lra).
  assert ((1 - u) * (q + q / M53) <= (1 - u) * p).
  { apply Rmult_le_compat_l; auto. unfold u. lra. }
  unfold Rdiv in *. replace ((1 - u) * (q + q * / M53)) with (q * ((1 - u) * (1 + / M53))) in H0 by ring. rewrite E in H0. lra.
Qed.
Lemma quotient_one p : 0 < p -> to_double (p / p) = 1.
Proof. intros H. replace (p / p) with 1 by (field; lra). apply to_double_id, is_double_1. Qed.

(** ** Rounding errors *)

(** Half a unit in the last place of 1, and half the smallest double. *)
Definition eps64 : R := / 9007199254740992.
Definition tiny : R := bpow radix2 (-1075).
Lemma eps64_bpow : eps64 = / 2 * bpow radix2 (- (53) + 1).
Proof. unfold eps64. change (bpow radix2 (- (53) + 1)) with (/ 4503599627370496). lra. Qed.
Lemma eps64_pos : 0 < eps64 < / 1000000000000000.
Proof. unfold eps64. lra. Qed.
Lemma tiny_bpow : tiny = / 2 * bpow radix2 (-1074).
Proof. unfold tiny. change (/ 2) with (bpow radix2 (-1)). now rewrite <- bpow_plus. Qed.
Lemma tiny_pos : 0 < tiny <= bpow radix2 (-200).
Proof. unfold tiny. split; [apply bpow_gt_0|apply bpow_le; lia]. Qed.

Lemma error_any x : Rabs (to_double x - x) <= eps64 * Rabs x + tiny.
Proof.
  destruct (error_N_FLT radix2 (-1074) 53 eq_refl (fun z => negb (Z.even z)) x) as (e & t & He & Ht & _ & E).
  unfold to_double, double_format. rewrite E. replace (x * (1 + e) + t - x) with (x * e + t) by ring.
  rewrite eps64_bpow, tiny_bpow. eapply Rle_trans; [apply Rabs_triang|]. apply Rplus_le_compat; auto.
  rewrite Rabs_mult, Rmult_comm. apply Rmult_le_compat_r; auto. apply Rabs_pos.
Qed.
#[local] Instance prec53 : Prec_gt_0 53 := eq_refl.
Lemma error_sum x y : is_double x -> is_double y -> Rabs (to_double (x + y) - (x + y)) <= eps64 * Rabs (x + y).
Proof.
  intros Hx Hy. apply is_double_format in Hx, Hy.
  destruct (FLT_plus_error_N_ex radix2 (-1074) 53 (fun z => negb (Z.even z)) x y Hx Hy) as (e & He & E).
  unfold to_double, double_format. rewrite E. replace ((x + y) * (1 + e) - (x + y)) with (e * (x + y)) by ring.
  rewrite Rabs_mult. apply Rmult_le_compat_r; [apply Rabs_pos|].
  eapply Rle_trans; [exact He|]. rewrite eps64_bpow. apply (u_rod1pu_ro_le_u_ro radix2 53).
Qed.
