(** Labels and CUSUM events in double arithmetic. *)
From Coq Require Import Reals ZArith Lia Lra Permutation String List.
From Flocq Require Import Core.
From Flocq.Prop Require Import Relative Plus_error.
From Verif Require Import PreludeFacts Num Series Boot_Model Boot_Proofs DailyVol_Model DailyVol_Proofs Label_Model Label_Spec Label_Proofs Label_Proofs2 Label_Proofs3 Label_Proofs4
  Cusum_Model Cusum_Proofs Double_Model Double_Spec Double_Proofs.
Import ListNotations.
Local Open Scope R_scope.

Lemma to_double_0 : to_double 0 = 0.
Proof. apply to_double_id, is_double_0. Qed.
Lemma to_double_nonneg x : 0 <= x -> 0 <= to_double x.
Proof. intros. apply to_double_ge_double; auto. apply is_double_0. Qed.
Lemma to_double_nonpos x : x <= 0 -> to_double x <= 0.
Proof. intros. apply to_double_le_double; auto. apply is_double_0. Qed.
#[local] Instance double_monotone : Monotone_exp double_format.
Proof. unfold double_format. apply FLT_exp_monotone. Qed.
#[local] Instance double_not_ftz : Exp_not_FTZ double_format.
Proof. apply monotone_exp_not_FTZ; typeclasses eauto. Qed.
Lemma sum_neq_0 x y : is_double x -> is_double y -> x + y <> 0 -> to_double (x + y) <> 0.
Proof.
  intros Hx Hy H E. apply is_double_format in Hx, Hy.
  apply (round_plus_neq_0 radix2 double_format ZnearestE x y Hx Hy H). exact E.
Qed.
Lemma sum_pos x y : is_double x -> is_double y -> 0 < x + y -> 0 < to_double (x + y).
Proof. intros Hx Hy H. pose proof (sum_neq_0 x y Hx Hy). pose proof (to_double_nonneg (x + y)). destruct (Rtotal_order 0 (to_double (x + y))) as [|[|]]; lra. Qed.
Lemma sum_neg x y : is_double x -> is_double y -> x + y < 0 -> to_double (x + y) < 0.
Proof. intros Hx Hy H. pose proof (sum_neq_0 x y Hx Hy). pose proof (to_double_nonpos (x + y)). destruct (Rtotal_order 0 (to_double (x + y))) as [|[|]]; lra. Qed.

(** The computed return. *)
Definition double_return (c0 c : R) : R := to_double (to_double (c / c0) + - 1).
Lemma return_eq c0 c : 0 < c0 -> @esub R Arith_double (@ediv R Arith_double (Fin c) (Fin c0)) (Fin 1) = Fin (double_return c0 c).
Proof.
  intros H. unfold double_return. cbn. destruct (Req_EM_T c0 0); [lra|]. reflexivity.
Qed.
Lemma return_sign c0 c : is_double c0 -> is_double c -> 0 < c0 -> 0 < c ->
  (c0 < c -> 0 < double_return c0 c) /\ (c < c0 -> double_return c0 c < 0) /\ (c = c0 -> double_return c0 c = 0).
Proof.
  intros D0 D P0 P. unfold double_return. pose proof (is_double_opp 1 is_double_1) as D1. pose proof (to_double_is (c / c0)) as DQ.
  split; [|split]; intros H.
  - apply sum_pos; auto. pose proof (quotient_above c0 c D0 D P0 H). lra.
  - apply sum_neg; auto. pose proof (quotient_below c0 c D0 D P0 P H). lra.
  - subst. rewrite quotient_one by auto. replace (1 + - 1) with 0 by lra. apply to_double_0.
Qed.

Lemma times_side r s : is_double r -> s = 1 \/ s = -1 -> to_double (r * s) = r * s.
Proof.
  intros D [-> | ->]; apply to_double_id.
  - now rewrite Rmult_1_r.
  - replace (r * -1) with (- r) by lra. now apply is_double_opp.
Qed.
Lemma double_return_is c0 c : is_double (double_return c0 c).
Proof. apply to_double_is. Qed.

Lemma sign_label_double r : @sign_label R Arith_double (Fin r) = Fin (if Rlt_dec r 0 then -1 else if Rlt_dec 0 r then 1 else 0).
Proof. cbn. destruct (Rlt_dec r 0); [f_equal; lra|]. destruct (Rlt_dec 0 r); reflexivity. Qed.
Lemma success_label_double r : @success_label R Arith_double (Fin r) = if Rlt_dec 0 r then Fin 1 else if Rlt_dec r 0 then Fin 0 else NaN.
Proof. unfold success_label. cbn. destruct (Rlt_dec 0 r); auto. destruct (Rlt_dec r 0); auto. Qed.

Lemma c106_labels daily_vol order (cfg : config R) y close out i o s t :
  valid_times (f_index y) -> well_formed y -> Permutation order (seq 0 (length (f_index y))) ->
  column y (close_column cfg) = Some close -> (forall c, In c close -> exists p, c = Fin p /\ positive_double p) ->
  @event_side R Arith_double y i (Fin s) -> s = 1 \/ s = -1 ->
  @transform R Arith_double daily_vol order cfg y = Ok out -> nth_error out i = Some o -> o_end o = Some t ->
  exists k c0 c, nth_error (f_index y) k = Some t /\ nth_error close i = Some (Fin c0) /\ nth_error close k = Some (Fin c) /\
    (expiration_label cfg = false -> metalabeling cfg = false ->
       (c0 < c -> o_label o = Fin 1) /\ (c < c0 -> o_label o = Fin (-1)) /\ (c = c0 -> o_label o = Fin 0)) /\
    (expiration_label cfg = false -> metalabeling cfg = true ->
       (0 < (c - c0) * s -> o_label o = Fin 1) /\ ((c - c0) * s < 0 -> o_label o = Fin 0) /\ (c = c0 -> o_label o = NaN)).
Proof.
  intros HV HW HP Hc Hpos Hs Hs1 HT Ho He.
  destruct (@c28 R Arith_double _ _ _ _ _ _ _ _ _ _ HV HW HP Hc Hs HT Ho He) as (k & c0 & c & Hk & H0 & Hck & HR & _ & HL).
  destruct (Hpos c0) as (p0 & -> & D0 & P0); [eapply nth_error_In; eauto|].
  destruct (Hpos c) as (p & -> & D & P); [eapply nth_error_In; eauto|].
  exists k, p0, p. do 3 (split; [assumption|]).
  destruct (return_sign p0 p D0 D P0 P) as (S1 & S2 & S3).
  change (@a1 R Arith_double) with 1 in HL. rewrite (return_eq p0 p P0) in HL.
  split; intros E M; specialize (HL (or_introl E)); rewrite M in HL; rewrite HL.
  - rewrite sign_label_double. split; [|split]; intros HH.
    + specialize (S1 HH). destruct (Rlt_dec _ 0); [lra|]. destruct (Rlt_dec 0 _); [reflexivity|lra].
    + specialize (S2 HH). destruct (Rlt_dec _ 0); [reflexivity|lra].
    + specialize (S3 HH). rewrite S3. destruct (Rlt_dec 0 0); [lra|]. reflexivity.
  - change (@emul R Arith_double (Fin (double_return p0 p)) (Fin s)) with (@Fin R (to_double (double_return p0 p * s))).
    rewrite (times_side _ _ (double_return_is p0 p) Hs1), success_label_double.
    destruct Hs1 as [-> | ->]; split; try split; intros HH;
      (destruct (Rtotal_order p0 p) as [C|[C|C]]; [specialize (S1 C)|symmetry in C; specialize (S3 C)|specialize (S2 C)]);
      repeat (destruct (Rlt_dec _ _)); try reflexivity; try lra.
Qed.

(** ** Events end after they start *)

Section Later.
  Context {A : Type} {HA : Arith A}.
  Lemma ends_later daily_vol order (cfg : config A) y close out i o s t t0 :
    valid_times (f_index y) -> well_formed y -> Permutation order (seq 0 (length (f_index y))) ->
    (1 <= n_expiration_bars cfg)%Z ->
    column y (close_column cfg) = Some close -> event_side y i s ->
    (forall c, nth_error close i = Some c -> below_stop (stop_loss_factor cfg) (o_vol o) (side_return c s c) = false /\
       above_profit (profit_taking_factor cfg) (o_vol o) (side_return c s c) = false) ->
    transform daily_vol order cfg y = Ok out -> nth_error out i = Some o -> o_end o = Some t ->
    nth_error (f_index y) i = Some t0 -> (t0 < t)%Z.
  Proof.
    intros HV HW HP Hn Hc Hs Hno HT Ho He Ht0.
    destruct (is_nan (o_vol o)) eqn:En.
    { destruct (c27_novol _ _ _ _ _ _ _ HV HW HP HT Ho En) as (E & _). congruence. }
    destruct (proj1 (c27 _ _ _ _ _ _ _ _ _ HV HW HP Hc Hs HT Ho En t) He) as [Hb _].
    assert (Htouch : forall e test, (forall c, nth_error close i = Some c -> test (side_return c s c) = false) ->
      touch (f_index y) close i e s test t -> (t0 < t)%Z).
    { intros e test Hf (x & c0 & k & c & H1 & H2 & H3 & H4 & H5 & H6). assert (x = t0) by congruence. subst x.
      destruct (Z.eq_dec t0 t) as [->|]; [|lia]. assert (k = i) by (eapply incZ_nth_inj; [apply HV| |]; eauto). subst k.
      assert (c = c0) by congruence. subst c. rewrite (Hf _ H2) in H6. discriminate. }
    destruct Hb as [(p & Ep & Hp)|(e & _ & [Ht|Ht])].
    - assert (~ (t <= t0)%Z); [|lia]. intros Hle. apply (incZ_nth_le _ (proj1 HV) p i t t0 Hp Ht0) in Hle. lia.
    - eapply Htouch; [|exact Ht]. intros c Hcc. apply (Hno c Hcc).
    - eapply Htouch; [|exact Ht]. intros c Hcc. apply (Hno c Hcc).
  Qed.
End Later.

Lemma c106_later daily_vol order (cfg : config R) y close out i o s v c t t0 :
  valid_times (f_index y) -> well_formed y -> Permutation order (seq 0 (length (f_index y))) ->
  (1 <= n_expiration_bars cfg)%Z ->
  column y (close_column cfg) = Some close -> nth_error close i = Some (Fin c) -> c <> 0 ->
  @event_side R Arith_double y i (Fin s) -> o_vol o = Fin v -> 0 <= v ->
  @transform R Arith_double daily_vol order cfg y = Ok out -> nth_error out i = Some o -> o_end o = Some t ->
  nth_error (f_index y) i = Some t0 -> (t0 < t)%Z.
Proof.
  intros HV HW HP Hn Hc Hci Hc0 Hs Hv Hv0. apply (@ends_later R Arith_double daily_vol order cfg y close out i o (Fin s) t t0 HV HW HP Hn Hc Hs).
  intros c' Hc'. assert (c' = Fin c) by congruence. subst c'. rewrite Hv.
  assert (@side_return R Arith_double (Fin c) (Fin s) (Fin c) = Fin 0) as ->.
  { unfold side_return. cbn -[to_double]. destruct (Req_EM_T c 0); [contradiction|]. cbn -[to_double]. unfold adiv. cbn -[to_double].
    replace (c * / c) with 1 by (field; auto). rewrite (to_double_id 1 is_double_1). replace (1 + - (1)) with 0 by lra.
    rewrite to_double_0, Rmult_0_l, to_double_0. reflexivity. }
  unfold below_stop, above_profit. cbn -[to_double].
  split; destruct (Rlt_dec 0 _); auto; cbn -[to_double]; (destruct (Rlt_dec _ _) as [HH|]; auto); exfalso.
  - assert (to_double (- stop_loss_factor cfg * v) <= 0); [apply to_double_nonpos; nra|lra].
  - assert (0 <= to_double (profit_taking_factor cfg * v)); [apply to_double_nonneg; nra|lra].
Qed.
Lemma c27_later daily_vol order (cfg : config R) y close out i o s v c t t0 :
  valid_times (f_index y) -> well_formed y -> Permutation order (seq 0 (length (f_index y))) ->
  (1 <= n_expiration_bars cfg)%Z ->
  column y (close_column cfg) = Some close -> nth_error close i = Some (Fin c) -> c <> 0 ->
  event_side y i (Fin s) -> o_vol o = Fin v -> 0 <= v ->
  transform daily_vol order cfg y = Ok out -> nth_error out i = Some o -> o_end o = Some t ->
  nth_error (f_index y) i = Some t0 -> (t0 < t)%Z.
Proof.
  intros HV HW HP Hn Hc Hci Hc0 Hs Hv Hv0. apply (ends_later daily_vol order cfg y close out i o (Fin s) t t0 HV HW HP Hn Hc Hs).
  intros c' Hc'. assert (c' = Fin c) by congruence. subst c'. rewrite Hv.
  assert (side_return (Fin c) (Fin s) (Fin c) = Fin 0) as ->.
  { unfold side_return. cbn. destruct (Req_EM_T c 0); [contradiction|]. cbn. unfold adiv. cbn. f_equal. field. auto. }
  unfold below_stop, above_profit. cbn.
  split; destruct (Rlt_dec 0 _); auto; cbn; (destruct (Rlt_dec _ _) as [HH|]; auto); exfalso; nra.
Qed.

(** ** Returns: monotone and accurate *)

Lemma return_monotone c0 c c' : 0 < c0 -> c <= c' -> double_return c0 c <= double_return c0 c'.
Proof.
  intros H L. unfold double_return. apply to_double_le. apply Rplus_le_compat_r. apply to_double_le.
  unfold Rdiv. apply Rmult_le_compat_r; auto. left. now apply Rinv_0_lt_compat.
Qed.
Lemma return_accuracy c0 c : 0 < c0 -> 0 < c -> Rabs (double_return c0 c - (c / c0 - 1)) <= 3 / 2 ^ 53 * (1 + c / c0).
Proof.
  intros H0 H. unfold double_return. set (q := c / c0).
  assert (Hq : 0 < q) by (unfold q, Rdiv; apply Rmult_lt_0_compat; auto; now apply Rinv_0_lt_compat).
  pose proof (error_any q) as E1. rewrite (Rabs_pos_eq q) in E1 by lra.
  pose proof (error_sum (to_double q) (- 1) (to_double_is q) (is_double_opp 1 is_double_1)) as E2.
  assert (3 / 2 ^ 53 = 3 * eps64) as ->.
  { unfold eps64. rewrite (pow_IZR 2 53). change (2 ^ Z.of_nat 53)%Z with 9007199254740992%Z. reflexivity. }
  pose proof eps64_pos as HE. pose proof tiny_pos as HT.
  assert (HB : bpow radix2 (-200) <= / 4 * eps64).
  { unfold eps64. replace (/ 4 * / 9007199254740992) with (bpow radix2 (-55)); [apply bpow_le; lia|].
    change (bpow radix2 (-55)) with (/ 36028797018963968). lra. }
  apply Rabs_le_inv in E1. set (qd := to_double q) in *. set (r := to_double (qd + -1)) in *.
  assert (E3 : Rabs (qd + -1) <= qd + 1).
  { assert (0 <= qd) by (apply to_double_nonneg; lra). unfold Rabs. destruct (Rcase_abs _); lra. }
  assert (E4 : eps64 * Rabs (qd + -1) <= eps64 * (qd + 1)) by (apply Rmult_le_compat_l; lra).
  assert (E5 : Rabs (r - (qd + -1)) <= eps64 * (qd + 1)) by (eapply Rle_trans; [exact E2|exact E4]). apply Rabs_le_inv in E5.
  assert (E6 : eps64 * qd <= eps64 * (q + / 4 * q + / 4)).
  { apply Rmult_le_compat_l; [lra|].
    assert (eps64 * q <= / 4 * q) by (apply Rmult_le_compat_r; lra). lra. }
  assert (0 <= eps64 * q) by (apply Rmult_le_pos; lra).
  apply Rabs_le. fold r. split; lra.
Qed.

(** ** The CUSUM filter *)

Definition within_d (h : R) (st : cstate R) : Prop :=
  exists p n, pos st = Fin p /\ neg st = Fin n /\ is_double p /\ is_double n /\ 0 <= p <= h /\ - h <= n <= 0.

Lemma max0_d (x : ext R) : x <> PInf -> exists p, @py_max R Arith_double (Fin 0) x = Fin p /\ 0 <= p /\ (x = Fin p \/ p = 0).
Proof.
  intros Hx. unfold py_max. destruct x as [a| | |]; [|congruence| |]; cbn; try (exists 0; repeat split; auto; lra).
  destruct (Rlt_dec 0 a); [exists a|exists 0]; repeat split; auto; lra.
Qed.
Lemma min0_d (x : ext R) : x <> NInf -> exists n, @py_min R Arith_double (Fin 0) x = Fin n /\ n <= 0 /\ (x = Fin n \/ n = 0).
Proof.
  intros Hx. unfold py_min. destruct x as [a| | |]; [| |congruence|]; cbn; try (exists 0; repeat split; auto; lra).
  destruct (Rlt_dec a 0); [exists a|exists 0]; repeat split; auto; lra.
Qed.

Lemma step_d h st t d : 0 <= h -> within_d h st ->
  within_d h (@cusum_step R Arith_double h st t d) /\
  (@eltb R Arith_double (@py_min R Arith_double (Fin 0) (@eadd R Arith_double (neg st) d)) (Fin (- h)) &&
   @eltb R Arith_double (Fin h) (@py_max R Arith_double (Fin 0) (@eadd R Arith_double (pos st) d)) = false)%bool.
Proof.
  intros Hh (p & n & Hp & Hn & Dp & Dn & Bp & Bn). unfold cusum_step. rewrite Hp, Hn. cbv zeta.
  change (@a0 R Arith_double) with 0. change (@eopp R Arith_double (Fin h)) with (Fin (- h)).
  pose proof is_double_0 as D0.
  destruct d as [d| | |].
  - change (@eadd R Arith_double (Fin p) (Fin d)) with (Fin (to_double (p + d))).
    change (@eadd R Arith_double (Fin n) (Fin d)) with (Fin (to_double (n + d))).
    destruct (max0_d (Fin (to_double (p + d)))) as (p' & Ep & Lp & Cp); [discriminate|].
    destruct (min0_d (Fin (to_double (n + d)))) as (n' & En & Ln & Cn); [discriminate|].
    rewrite Ep, En. cbn [eltb Arith_double altb].
    assert (Dp' : is_double p') by (destruct Cp as [[= <-]| ->]; auto; apply to_double_is).
    assert (Dn' : is_double n') by (destruct Cn as [[= <-]| ->]; auto; apply to_double_is).
    assert (Hup : d <= 0 -> p' <= p).
    { intros Hd. destruct Cp as [[= <-]| ->]; [|lra]. apply to_double_le_double; auto. lra. }
    assert (Hdn : 0 <= d -> n <= n').
    { intros Hd. destruct Cn as [[= <-]| ->]; [|lra]. apply to_double_ge_double; auto. lra. }
    destruct (Rlt_dec n' (- h)); destruct (Rlt_dec h p'); cbn.
    + exfalso. destruct (Rle_dec d 0) as [Hd|Hd]; [specialize (Hup Hd)|specialize (Hdn ltac:(lra))]; lra.
    + split; auto. exists p', 0. cbn. repeat split; auto; lra.
    + split; auto. exists 0, n'. cbn. repeat split; auto; lra.
    + split; auto. exists p', n'. cbn. repeat split; auto; lra.
  - cbn. destruct (Rlt_dec 0 (- h)); [lra|]. cbn. split; auto. exists 0, 0. cbn. repeat split; auto; lra.
  - cbn. destruct (Rlt_dec h 0); [lra|]. cbn. split; auto. exists 0, 0. cbn. repeat split; auto; lra.
  - cbn. destruct (Rlt_dec h 0); [lra|]. destruct (Rlt_dec 0 (- h)); [lra|]. cbn. split; auto. exists 0, 0. cbn. repeat split; auto; lra.
Qed.
Lemma loop_d h X st : 0 <= h -> @cusum_loop R Arith_double h X = Ok st -> within_d h st.
Proof.
  intros Hh H. pose proof (@loop_ok_nodup R Arith_double h X st H) as HN. rewrite (@loop_nodup R Arith_double h X HN) in H. injection H as <-.
  assert (forall l s, within_d h s -> within_d h (@run R Arith_double h l s)) as HR.
  { induction l as [|[t d] l IH]; intros s Hs; auto. cbn. apply IH. now apply step_d. }
  apply HR. exists 0, 0. cbn. pose proof is_double_0. repeat split; auto; lra.
Qed.
