(** `int(a / b)` of two integers is the whole part of the double nearest to a/b. *)
From Coq Require Import Reals ZArith QArith Qreals Lia Lra.
From Flocq Require Import Core.
From Verif Require Import Prelude CV_Model Rounding_Model Double_Model Double_Spec Double_Proofs Double_Boot_Proofs3 Rounding_Proofs.
Local Open Scope R_scope.

Lemma Zfloor_pow m e : (0 <= e)%Z -> Zfloor (IZR m * bpow radix2 (- e)) = (m / 2 ^ e)%Z.
Proof.
  intros He. rewrite bpow_opp, <- pow2_IZR by exact He. fold (IZR m / IZR (2 ^ e)). apply Zfloor_div.
  assert (0 < 2 ^ e)%Z by (apply Z.pow_pos_nonneg; lia). lia.
Qed.
Lemma int_truediv_double a b v : (0 <= a)%Z -> (0 < b)%Z -> int_truediv a b = Ok v -> v = Zfloor (to_double (IZR a / IZR b)).
Proof.
  intros Ha Hb. unfold int_truediv. destruct (Z.eqb_spec a 0) as [->|Hne].
  { intros E. injection E as <-. unfold Rdiv. rewrite Rmult_0_l. unfold to_double. rewrite round_0 by typeclasses eauto. symmetry. apply (Zfloor_IZR 0). }
  assert (Pa : 0 < IZR a) by (apply IZR_lt; lia). assert (Pb : 0 < IZR b) by (now apply IZR_lt).
  set (x := IZR a / IZR b). assert (Px : 0 < x) by (now apply Rdiv_lt_0_compat).
  pose proof (mag_quotient a b ltac:(lia) Hb) as Hm. cbv zeta in *. fold x in Hm. rewrite Hm. clear Hm. set (e := (mag radix2 x - 53)%Z).
  pose proof (pow2_pos (Z.max 0 (- e)) ltac:(lia)) as P1. pose proof (pow2_pos (Z.max 0 e) ltac:(lia)) as P2.
  assert (Pd : (0 < b * 2 ^ Z.max 0 e)%Z) by (apply lt_IZR; rewrite mult_IZR; now apply Rmult_lt_0_compat).
  assert (Eq : x * bpow radix2 (- e) = IZR (a * 2 ^ Z.max 0 (- e)) / IZR (b * 2 ^ Z.max 0 e)).
  { unfold x. rewrite (pow2_split (- e)), Z.opp_involutive, !mult_IZR. field. lra. }
  rewrite <- (round_half_even_ZnearestE _ _ Pd), <- Eq. set (m := ZnearestE (x * bpow radix2 (- e))).
  destruct (Z.leb_spec (2 ^ 1024) (if (0 <=? e)%Z then (m * 2 ^ e)%Z else (m / 2 ^ - e)%Z)); [discriminate|]. intros E. injection E as <-.
  destruct (Z_le_gt_dec (-1074) e) as [C|C].
  - assert (to_double x = IZR m * bpow radix2 e) as ->.
    { unfold to_double, round, F2R, scaled_mantissa, cexp. cbn [Fnum Fexp].
      assert (double_format (mag radix2 x) = e) as -> by (unfold double_format, FLT_exp; lia). reflexivity. }
    destruct (Z.leb_spec 0 e) as [He|He].
    + rewrite <- pow2_IZR, <- mult_IZR by exact He. now rewrite Zfloor_IZR.
    + replace e with (- (- e))%Z at 2 by lia. symmetry. apply Zfloor_pow. lia.
  - (* below the smallest normal double: zero either way *)
    assert (Ux : x < bpow radix2 (mag radix2 x)) by (rewrite <- (Rabs_pos_eq x) at 1 by lra; apply bpow_mag_gt).
    assert (Us : x * bpow radix2 (- e) < bpow radix2 53).
    { replace 53%Z with (mag radix2 x + - e)%Z by lia. rewrite bpow_plus. apply Rmult_lt_compat_r; [apply bpow_gt_0|exact Ux]. }
    assert (M : (0 <= m <= 2 ^ 53)%Z).
    { pose proof (bpow_gt_0 radix2 (- e)) as Pe. assert (0 <= x * bpow radix2 (- e)) by (apply Rmult_le_pos; lra). unfold m. split.
      - apply Z.le_trans with (ZnearestE (IZR 0)); [rewrite (Zrnd_IZR ZnearestE 0); apply Z.le_refl|]. apply Zrnd_le; [typeclasses eauto|exact H0].
      - apply Z.le_trans with (ZnearestE (IZR (2 ^ 53))); [|rewrite (Zrnd_IZR ZnearestE (2 ^ 53)); apply Z.le_refl]. apply Zrnd_le; [typeclasses eauto|]. rewrite pow2_IZR by lia. lra. }
    destruct (Z.leb_spec 0 e); [lia|].
    rewrite Z.div_small by (split; [lia|]; apply Z.le_lt_trans with (2 ^ 53)%Z; [lia|apply Z.pow_lt_mono_r; lia]).
    symmetry. apply Zfloor_imp. split.
    + apply to_double_ge_double; [|lra]. exists 0%Z, 0%Z. split; [cbn; lra|split; [cbn; lia|lia]].
    + apply Rle_lt_trans with (bpow radix2 (-1)).
      * apply to_double_le_double; [rewrite <- (Rmult_1_l (bpow radix2 (-1))); change 1 with (INR 1); apply is_double_scaled; cbn; lia|].
        left. eapply Rlt_le_trans; [exact Ux|]. apply bpow_le. lia.
      * change (IZR (0 + 1)) with 1. change (bpow radix2 (-1)) with (/ 2). lra.
Qed.
