(** The confidence in a prediction in double precision. *)
From Coq Require Import Reals ZArith Lia Lra List Psatz.
From Flocq Require Import Core.
From Verif Require Import Num Series Bet_Model Bet_Spec Bet_Proofs Bet_Proofs2 Bet_Proofs3 Double_Model Double_Spec Double_Proofs Double_Proofs2
  Double_Weights_Proofs Double_Bet_Model Double_Bet_Spec.
Import ListNotations.
Local Open Scope R_scope.

(** ** Doubles *)
Lemma double_twice x : is_double x -> is_double (2 * x).
Proof.
  intros (m & e & -> & Hm & He). exists m, (e + 1)%Z. repeat split; try lia. rewrite powerRZ_add by lra. rewrite powerRZ_1. lra.
Qed.
Lemma double_sign x v : is_double x -> sign_value v -> is_double (v * x).
Proof.
  intros D [->|[->| ->]]; [now rewrite Rmult_1_l| |rewrite Rmult_0_l; apply is_double_0].
  replace (-1 * x) with (- x) by lra. now apply is_double_opp.
Qed.
Lemma is_double_m1 : is_double (-1).
Proof. apply (is_double_IZR (-1)). lia. Qed.
Lemma is_double_half : is_double (/ 2).
Proof. exists 1%Z, (-1)%Z. repeat split; try lia. change (powerRZ 2 (-1)) with (/ (2 * 1)). lra. Qed.
(** A positive double is the smallest one or at least twice it. *)
Definition least : R := powerRZ 2 (-1074).
Lemma least_pos : 0 < least.
Proof. apply powerRZ_lt. lra. Qed.
Lemma least_double : is_double least.
Proof. exists 1%Z, (-1074)%Z. repeat split; [now rewrite Rmult_1_l|lia]. Qed.
Lemma least_small : least <= / 18014398509481984.
Proof.
  unfold least. rewrite <- bpow2. replace (/ 18014398509481984) with (bpow radix2 (-54)) by (cbn; lra). apply bpow_le. lia.
Qed.
Lemma double_least p : is_double p -> 0 < p -> p = least \/ 2 * least <= p.
Proof.
  intros (m & e & -> & _ & He) Hp. unfold least.
  replace e with ((e + 1074) + (-1074))%Z in * by lia. rewrite powerRZ_add in * by lra. rewrite <- Rmult_assoc in *.
  set (k := (m * 2 ^ (e + 1074))%Z).
  assert (E : IZR m * powerRZ 2 (e + 1074) = IZR k).
  { unfold k. rewrite mult_IZR. f_equal. rewrite <- bpow2. symmetry. apply (IZR_Zpower radix2). lia. }
  rewrite E in *. pose proof least_pos as L. unfold least in L. set (u := powerRZ 2 (-1074)) in *. clearbody u.
  assert (0 < k)%Z as Hk.
  { apply lt_IZR. destruct (Rlt_or_le 0 (IZR k)); auto. exfalso. nra. }
  destruct (Z.eq_dec k 1) as [->|N]; [left; lra|right]. assert (IZR 2 <= IZR k) by (apply IZR_le; lia). nra.
Qed.

(** ** The test statistic *)
Lemma product_pos p : is_double p -> 0 < p < 1 -> 0 < to_double (p * to_double (1 - p)) <= 1.
Proof.
  intros D [L U]. split.
  - destruct (Rle_or_lt (/ 2) p) as [H|H].
    + rewrite (to_double_id (1 - p)) by (apply one_minus_exact; auto; lra).
      pose proof (one_minus_exact p D ltac:(lra)) as D1.
      (* the smaller factor is at least 2^-1074, the larger at least 1/2; both cases as below *)
      destruct (double_least (1 - p) D1 ltac:(lra)) as [E|E].
      * exfalso. pose proof least_small as Hs. pose proof just_below_one as J. 
        assert (to_double p = 1) as Ep by (apply around_one; lra). rewrite (to_double_id p D) in Ep. lra.
      * apply Rlt_le_trans with least; [apply least_pos|]. apply to_double_ge_double; [apply least_double|]. pose proof least_pos. nra.
    + assert (/ 2 <= to_double (1 - p)) as Hh by (apply to_double_ge_double; [apply is_double_half|lra]).
      pose proof least_pos as Lp. destruct (double_least p D L) as [E|E].
      * pose proof least_small. rewrite (around_one (1 - p)) by lra. rewrite Rmult_1_r, to_double_id; auto.
      * apply Rlt_le_trans with least; auto. apply to_double_ge_double; [apply least_double|]. nra.
  - apply to_double_le_double; [apply is_double_1|].
    assert (to_double (1 - p) <= 1) by (apply to_double_le_double; [apply is_double_1|lra]).
    assert (0 <= to_double (1 - p)) by (apply to_double_nonneg; lra). nra.
Qed.
Lemma root_pos y : is_double y -> 0 < y <= 1 -> 0 < to_double (sqrt y) <= 1.
Proof.
  intros D [L U]. pose proof (sqrt_sqrt y ltac:(lra)) as S. pose proof (sqrt_lt_R0 y L) as P.
  assert (sqrt y <= 1) by (rewrite <- sqrt_1; apply sqrt_le_1_alt; lra). split.
  - apply Rlt_le_trans with y; auto. apply to_double_ge_double; auto. nra.
  - apply to_double_le_double; auto. apply is_double_1.
Qed.

Section Classes.
  Variable cdf : R -> R.
  Hypothesis Hcdf : double_cdf cdf.
  Variable n : nat.
  Hypothesis Hn : (2 <= n)%nat.
  Hypothesis Hn' : (Z.of_nat n <= 2 ^ 53)%Z.
  Let b : R := to_double (1 / INR n).

  Lemma share : 0 < b <= / 2.
  Proof.
    assert (2 <= INR n) as H2 by (apply (le_INR 2 n) in Hn; cbn in Hn; lra).
    assert (INR n <= 9007199254740992) as H3 by (rewrite INR_IZR_INZ; apply IZR_le; lia).
    split.
    - apply Rlt_le_trans with (/ 9007199254740992); [lra|]. apply to_double_ge_double.
      + exists 1%Z, (-53)%Z. repeat split; try lia. rewrite <- bpow2. cbn. lra.
      + unfold Rdiv. rewrite Rmult_1_l. apply Rinv_le_contravar; lra.
    - apply to_double_le_double; [apply is_double_half|]. unfold Rdiv. rewrite Rmult_1_l. apply Rinv_le_contravar; lra.
  Qed.

  Lemma doubled x : is_double x -> 0 <= x <= 1 -> is_double (to_double (2 * x - 1)) /\ -1 <= to_double (2 * x - 1) <= 1.
  Proof.
    intros D H. split; [apply to_double_is|]. split; [apply to_double_ge_double; [apply is_double_m1|lra]|apply to_double_le_double; [apply is_double_1|lra]].
  Qed.
  Lemma confidence_double p : is_double (double_confidence cdf n p) /\ -1 <= double_confidence cdf n p <= 1.
  Proof.
    unfold double_confidence. destruct (Req_EM_T p 0); [split; [apply is_double_m1|lra]|].
    destruct (Req_EM_T p 1); [split; [apply is_double_1|lra]|]. destruct Hcdf as (H & _). destruct (H (double_z n p)). now apply doubled.
  Qed.

  Lemma signed_bet_double_fin r p (d : R) : b_prob r = Fin p -> b_pred r = Fin d -> is_double p -> 0 <= p <= 1 -> sign_value d ->
    signed_bet_double cdf n r = Fin (d * double_confidence cdf n p).
  Proof.
    intros Ep Ed D Hp Hd. pose proof share as Hb. unfold signed_bet_double. rewrite Ep, Ed. unfold esub. cbn [eopp eadd emul aopp aadd amul Arith_double].
    fold b. change (1 + - p) with (1 - p). change (p + - b) with (p - b).
    pose proof (double_sign _ d (proj1 (confidence_double p)) Hd) as DD.
    unfold double_confidence, double_z in *. fold b in DD |- *. fold b.
    assert (Db : is_double b) by apply to_double_is.
    destruct (Req_EM_T p 0) as [->|N0].
    - rewrite Rmult_0_l, to_double_0. unfold pow_half_double, pow_half. cbn [esqrt]. destruct (Rlt_dec 0 0); [lra|]. rewrite sqrt_0, to_double_0.
      cbn [ediv aeqb Arith_double a0]. destruct (Req_EM_T 0 0); [|lra]. unfold asign. cbn [altb Arith_double a0].
      assert (to_double (0 - b) < 0) as Hneg by (apply (sum_neg 0 (- b)); [apply is_double_0|now apply is_double_opp|lra]).
      destruct (Rlt_dec (to_double (0 - b)) 0); [|lra]. cbn [signed_inf norm_cdf emul eadd amul aadd Arith_double].
      rewrite Rmult_0_r, to_double_0. replace (0 + - (1)) with (-1) by lra. rewrite (to_double_id (-1) is_double_m1). f_equal. now apply to_double_id.
    - destruct (Req_EM_T p 1) as [->|N1].
      + rewrite Rminus_eq_0, to_double_0, Rmult_0_r, to_double_0. unfold pow_half_double, pow_half. cbn [esqrt]. destruct (Rlt_dec 0 0); [lra|].
        rewrite sqrt_0, to_double_0. cbn [ediv aeqb Arith_double a0]. destruct (Req_EM_T 0 0); [|lra]. unfold asign. cbn [altb Arith_double a0].
        assert (0 < to_double (1 - b)) as Hpos by (apply (sum_pos 1 (- b)); [apply is_double_1|now apply is_double_opp|lra]).
        destruct (Rlt_dec (to_double (1 - b)) 0); [lra|]. destruct (Rlt_dec 0 (to_double (1 - b))); [|lra].
        cbn [signed_inf norm_cdf emul eadd amul aadd Arith_double].
        rewrite Rmult_1_r. rewrite (to_double_id 2) by (apply (is_double_IZR 2); lia). replace (2 + - (1)) with 1 by lra.
        rewrite (to_double_id 1 is_double_1). f_equal. now apply to_double_id.
      + pose proof (product_pos p D ltac:(lra)) as P1. unfold pow_half_double, pow_half. cbn [esqrt].
        destruct (Rlt_dec (to_double (p * to_double (1 - p))) 0); [lra|].
        pose proof (root_pos _ (to_double_is _) P1) as P2. cbn [ediv aeqb Arith_double a0].
        destruct (Req_EM_T (to_double (sqrt (to_double (p * to_double (1 - p))))) 0); [lra|].
        cbn [norm_cdf emul eadd amul aadd Arith_double]. unfold adiv. cbn [amul ainv Arith_double].
        change (to_double (p - b) * / to_double (sqrt (to_double (p * to_double (1 - p))))) with (to_double (p - b) / to_double (sqrt (to_double (p * to_double (1 - p))))).
        set (z := to_double (to_double (p - b) / _)) in *. clearbody z. destruct Hcdf as (Hc & _). destruct (Hc z) as [Dz _].
        rewrite (to_double_id (2 * cdf z)) by now apply double_twice. change (2 * cdf z + - (1)) with (2 * cdf z - 1). f_equal. now apply to_double_id.
  Qed.

  (** From one half on, a larger probability has a confidence no smaller. *)
  Lemma statistic_mono p q : is_double p -> is_double q -> / 2 <= p -> p <= q -> q < 1 -> 0 <= double_z n p <= double_z n q.
  Proof.
    intros Dp Dq Hp Hpq Hq. pose proof share as Hb. unfold double_z. fold b.
    rewrite (to_double_id (1 - p)), (to_double_id (1 - q)) by (apply one_minus_exact; auto; lra).
    set (yp := to_double (p * (1 - p))). set (yq := to_double (q * (1 - q))).
    assert (0 < yp <= 1) as Hyp.
    { unfold yp. pose proof (product_pos p Dp ltac:(lra)) as H. now rewrite (to_double_id (1 - p)) in H by (apply one_minus_exact; auto; lra). }
    assert (0 < yq <= 1) as Hyq.
    { unfold yq. pose proof (product_pos q Dq ltac:(lra)) as H. now rewrite (to_double_id (1 - q)) in H by (apply one_minus_exact; auto; lra). }
    assert (yq <= yp) as Hy by (apply to_double_le; nra).
    pose proof (root_pos yp (to_double_is _) Hyp) as Hsp. pose proof (root_pos yq (to_double_is _) Hyq) as Hsq.
    assert (to_double (sqrt yq) <= to_double (sqrt yp)) as Hs by (apply to_double_le, sqrt_le_1_alt; exact Hy).
    assert (0 <= to_double (p - b)) as N0 by (apply to_double_nonneg; lra).
    assert (to_double (p - b) <= to_double (q - b)) as N1 by (apply to_double_le; lra).
    set (sp := to_double (sqrt yp)) in *. set (sq := to_double (sqrt yq)) in *. clearbody sp sq yp yq.
    set (np := to_double (p - b)) in *. set (nq := to_double (q - b)) in *. clearbody np nq.
    assert (0 < / sp) as Isp by (apply Rinv_0_lt_compat; lra). assert (/ sp <= / sq) as Isq by (apply Rinv_le_contravar; lra).
    split; [apply to_double_nonneg|apply to_double_le]; unfold Rdiv; nra.
  Qed.
  Lemma confidence_mono p q : is_double p -> is_double q -> / 2 <= p -> p <= q -> q <= 1 ->
    0 <= double_confidence cdf n p <= double_confidence cdf n q.
  Proof.
    intros Dp Dq Hp Hpq Hq. destruct Hcdf as (Hr & Hm & H0).
    assert (Hpos : forall x, is_double x -> / 2 <= x <= 1 -> 0 <= double_confidence cdf n x).
    { intros x Dx Hx. unfold double_confidence. destruct (Req_EM_T x 0); [lra|]. destruct (Req_EM_T x 1); [lra|].
      apply to_double_nonneg. pose proof (statistic_mono x x Dx Dx ltac:(lra) ltac:(lra) ltac:(lra)) as [Hz _]. apply Hm in Hz. lra. }
    split; [apply Hpos; auto; lra|]. destruct (Req_EM_T q 1) as [->|Nq].
    - destruct (confidence_double p) as [_ Hc]. unfold double_confidence at 2. destruct (Req_EM_T 1 0); [lra|]. destruct (Req_EM_T 1 1); [|lra]. lra.
    - pose proof (statistic_mono p q Dp Dq Hp Hpq ltac:(lra)) as [_ Hz]. apply Hm in Hz.
      unfold double_confidence. destruct (Req_EM_T p 0); [lra|]. destruct (Req_EM_T p 1); [lra|]. destruct (Req_EM_T q 0); [lra|]. destruct (Req_EM_T q 1); [lra|].
      apply to_double_le. lra.
  Qed.
  (** Below the share 1/n the confidence is against the prediction, above it for the prediction. *)
  Lemma confidence_sign p : is_double p -> 0 <= p <= 1 ->
    (b <= p -> 0 <= double_confidence cdf n p) /\ (p <= b -> double_confidence cdf n p <= 0).
  Proof.
    intros D Hp. pose proof share as Hb. destruct Hcdf as (Hr & Hm & H0). unfold double_confidence.
    destruct (Req_EM_T p 0) as [->|N0]; [lra|]. destruct (Req_EM_T p 1) as [->|N1]; [lra|].
    pose proof (root_pos _ (to_double_is _) (product_pos p D ltac:(lra))) as Hs. unfold double_z. fold b. set (s := to_double (sqrt _)) in *. clearbody s.
    assert (0 < / s) as Is by (apply Rinv_0_lt_compat; lra). split; intros H.
    - apply to_double_nonneg. assert (0 <= to_double (to_double (p - b) / s)) as Hz.
      { apply to_double_nonneg. assert (0 <= to_double (p - b)) by (apply to_double_nonneg; lra). unfold Rdiv. nra. }
      apply Hm in Hz. lra.
    - apply to_double_nonpos. assert (to_double (to_double (p - b) / s) <= 0) as Hz.
      { apply to_double_nonpos. assert (to_double (p - b) <= 0) by (apply to_double_nonpos; lra). unfold Rdiv. nra. }
      apply Hm in Hz. lra.
  Qed.
End Classes.
