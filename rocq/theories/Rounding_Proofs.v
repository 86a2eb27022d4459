(** The executable rounding is the rounding of Double_Model.v. *)
From Coq Require Import Reals ZArith QArith Qreals Lia Lra.
From Flocq Require Import Core.
From Verif Require Import Rounding_Model Double_Model Double_Spec Double_Proofs.
Local Open Scope R_scope.

Lemma round_half_even_ZnearestE n d : (0 < d)%Z -> ZnearestE (IZR n / IZR d) = round_half_even n d.
Proof.
  intros Hd. unfold round_half_even, Znearest. rewrite Zfloor_div by lia.
  assert (Pd : 0 < IZR d) by (apply IZR_lt; lia).
  pose proof (Z.div_mod n d ltac:(lia)) as E. set (q := (n / d)%Z) in *. set (r := (n mod d)%Z) in *.
  assert (Er : IZR n / IZR d - IZR q = IZR r / IZR d).
  { rewrite E, plus_IZR, mult_IZR. field. lra. }
  pose proof (Z.mod_pos_bound n d Hd) as Br. fold r in Br.
  assert (Hc : (0 < r)%Z -> Zceil (IZR n / IZR d) = (q + 1)%Z).
  { intros Hr. apply Zceil_imp. replace (q + 1 - 1)%Z with q by lia. rewrite plus_IZR.
    assert (0 < IZR r / IZR d <= 1).
    { split; [apply Rdiv_lt_0_compat; auto; apply IZR_lt; lia|].
      apply Rmult_le_reg_r with (IZR d); auto. unfold Rdiv. rewrite Rmult_assoc, Rinv_l by lra. rewrite Rmult_1_r, Rmult_1_l. apply IZR_le. lia. }
    lra. }
  assert (Cmp : Rcompare (IZR n / IZR d - IZR q) (/ 2) = Z.compare (2 * r) d).
  { rewrite Er. rewrite <- (Rcompare_mult_r (2 * IZR d)) by lra.
    replace (IZR r / IZR d * (2 * IZR d)) with (IZR (2 * r)) by (rewrite mult_IZR; field; lra).
    replace (/ 2 * (2 * IZR d)) with (IZR d) by field. apply Rcompare_IZR. }
  rewrite Cmp. destruct (Z.compare_spec (2 * r) d) as [C|C|C].
  - rewrite Hc by lia. destruct (Z.even q); reflexivity.
  - reflexivity.
  - apply Hc. lia.
Qed.

Lemma pow2_IZR e : (0 <= e)%Z -> IZR (2 ^ e) = bpow radix2 e.
Proof. intros H. exact (IZR_Zpower radix2 e H). Qed.
Lemma pow2_split e : bpow radix2 e = IZR (2 ^ Z.max 0 e) / IZR (2 ^ Z.max 0 (- e)).
Proof.
  rewrite !pow2_IZR by lia. destruct (Z.le_gt_cases 0 e).
  - rewrite Z.max_r, (Z.max_l 0 (- e)) by lia. cbn [bpow]. field.
  - rewrite Z.max_l, (Z.max_r 0 (- e)) by lia. rewrite bpow_opp. cbn [bpow]. field. apply Rgt_not_eq, bpow_gt_0.
Qed.
Lemma pow2_pos e : (0 <= e)%Z -> 0 < IZR (2 ^ e).
Proof. intros. rewrite pow2_IZR by auto. apply bpow_gt_0. Qed.

Lemma log2_bounds a : (0 < a)%Z -> bpow radix2 (Z.log2 a) <= IZR a < bpow radix2 (Z.log2 a + 1).
Proof.
  intros H. pose proof (Z.log2_spec a H) as [L U]. pose proof (Z.log2_nonneg a). rewrite <- !pow2_IZR by lia.
  split; [apply IZR_le; exact L|apply IZR_lt; exact U].
Qed.
Lemma mag_quotient a b : (0 < a)%Z -> (0 < b)%Z ->
  let e0 := (Z.log2 a - Z.log2 b - 52)%Z in
  ((if (a * 2 ^ Z.max 0 (- e0) <? 2 ^ 52 * (b * 2 ^ Z.max 0 e0))%Z then e0 - 1 else e0) = mag radix2 (IZR a / IZR b) - 53)%Z.
Proof.
  intros Ha Hb e0. assert (Pa : 0 < IZR a) by (now apply IZR_lt). assert (Pb : 0 < IZR b) by (now apply IZR_lt).
  set (x := IZR a / IZR b). assert (Px : 0 < x) by (now apply Rdiv_lt_0_compat).
  assert (Hx : x * IZR b = IZR a) by (unfold x; field; lra).
  destruct (log2_bounds a Ha) as [La Ua]. destruct (log2_bounds b Hb) as [Lb Ub].
  (* 2^(la - lb - 1) < x < 2^(la - lb + 1) *)
  assert (Lx : bpow radix2 (e0 + 51) < x).
  { apply Rmult_lt_reg_r with (IZR b); auto. rewrite Hx. apply Rlt_le_trans with (bpow radix2 (e0 + 51) * bpow radix2 (Z.log2 b + 1)).
    - apply Rmult_lt_compat_l; [apply bpow_gt_0|exact Ub].
    - rewrite <- bpow_plus. unfold e0. replace (Z.log2 a - Z.log2 b - 52 + 51 + (Z.log2 b + 1))%Z with (Z.log2 a) by lia. exact La. }
  assert (Ux : x < bpow radix2 (e0 + 53)).
  { apply Rmult_lt_reg_r with (IZR b); auto. rewrite Hx. apply Rlt_le_trans with (1 := Ua).
    apply Rle_trans with (bpow radix2 (e0 + 53) * bpow radix2 (Z.log2 b)).
    - rewrite <- bpow_plus. unfold e0. apply bpow_le. lia.
    - apply Rmult_le_compat_l; [left; apply bpow_gt_0|exact Lb]. }
  pose proof (pow2_pos (Z.max 0 (- e0)) ltac:(lia)) as P1. pose proof (pow2_pos (Z.max 0 e0) ltac:(lia)) as P2.
  assert (Key : (a * 2 ^ Z.max 0 (- e0) < 2 ^ 52 * (b * 2 ^ Z.max 0 e0))%Z <-> x < bpow radix2 (e0 + 52)).
  { rewrite bpow_plus, (pow2_split e0), <- (pow2_IZR 52) by lia. split; intros H.
    - apply IZR_lt in H. rewrite !mult_IZR in H. apply Rmult_lt_reg_r with (IZR b * IZR (2 ^ Z.max 0 (- e0))); [now apply Rmult_lt_0_compat|].
      rewrite <- Rmult_assoc, Hx. eapply Rlt_le_trans; [exact H|]. right. field. lra.
    - apply lt_IZR. rewrite !mult_IZR. rewrite <- Hx.
      apply Rmult_lt_compat_r with (r := IZR b * IZR (2 ^ Z.max 0 (- e0))) in H; [|now apply Rmult_lt_0_compat].
      rewrite <- Rmult_assoc in H. eapply Rlt_le_trans; [exact H|]. right. field. lra. }
  destruct (Z.ltb_spec (a * 2 ^ Z.max 0 (- e0)) (2 ^ 52 * (b * 2 ^ Z.max 0 e0))) as [C|C].
  - apply Key in C. rewrite (mag_unique_pos radix2 x (e0 + 52)); [lia|]. replace (e0 + 52 - 1)%Z with (e0 + 51)%Z by lia. lra.
  - assert (~ x < bpow radix2 (e0 + 52)) as C' by (rewrite <- Key; lia).
    rewrite (mag_unique_pos radix2 x (e0 + 53)); [lia|]. replace (e0 + 53 - 1)%Z with (e0 + 52)%Z by lia. lra.
Qed.

Lemma rounded_pos_double a b : (0 < a)%Z -> (0 < b)%Z -> Q2R (rounded_pos a b) = to_double (IZR a / IZR b).
Proof.
  intros Ha Hb. assert (Pa : 0 < IZR a) by (now apply IZR_lt). assert (Pb : 0 < IZR b) by (now apply IZR_lt).
  unfold to_double, round, F2R, scaled_mantissa, cexp. cbn [Fnum Fexp].
  assert (double_format (mag radix2 (IZR a / IZR b)) = last_bit a b) as ->.
  { unfold last_bit, double_format, FLT_exp. rewrite (mag_quotient a b Ha Hb). lia. }
  unfold rounded_pos. set (e := last_bit a b). clearbody e.
  pose proof (pow2_pos (Z.max 0 (- e)) ltac:(lia)) as P1. pose proof (pow2_pos (Z.max 0 e) ltac:(lia)) as P2.
  assert (IZR a / IZR b * bpow radix2 (- e) = IZR (a * 2 ^ Z.max 0 (- e)) / IZR (b * 2 ^ Z.max 0 e)) as ->.
  { rewrite (pow2_split (- e)), Z.opp_involutive, !mult_IZR. field. lra. }
  rewrite round_half_even_ZnearestE by (apply lt_IZR; rewrite mult_IZR; now apply Rmult_lt_0_compat).
  set (m := round_half_even _ _). clearbody m.
  destruct (Z.leb_spec 0 e) as [He|He].
  - unfold Q2R, inject_Z. cbn [Qnum Qden]. rewrite mult_IZR, pow2_IZR by exact He. lra.
  - unfold Q2R. cbn [Qnum Qden]. assert (0 < 2 ^ - e)%Z by (apply Z.pow_pos_nonneg; lia). rewrite Z2Pos.id by auto.
    rewrite pow2_IZR, bpow_opp, Rinv_inv by lia. reflexivity.
Qed.
Theorem rounded_double q : Q2R (rounded q) = to_double (Q2R q).
Proof.
  destruct q as [n d]. unfold rounded. cbn [Qnum Qden]. change (Q2R (n # d)) with (IZR n / IZR (Zpos d)). destruct n as [|a|a].
  - unfold Q2R. cbn [Qnum Qden]. replace (0 * / 1) with 0 by lra. unfold Rdiv. rewrite Rmult_0_l. unfold to_double. now rewrite round_0 by typeclasses eauto.
  - now apply rounded_pos_double.
  - rewrite Q2R_opp, rounded_pos_double by lia. rewrite <- to_double_opp. f_equal. change (Zneg a) with (- Zpos a)%Z. rewrite opp_IZR. unfold Rdiv. ring.
Qed.
