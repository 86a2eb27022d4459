(** C113: bet sizes in double precision. *)
From Coq Require Import Reals ZArith Lia Lra List String.
From Verif Require Import Prelude Num Series Weights_Spec PreludeFacts Bet_Model Bet_Spec Bet_Proofs Bet_Proofs2 Bet_Proofs3 Double_Model Double_Spec Double_Proofs Double_Proofs2
  Double_Bet_Model Double_Bet_Spec Double_Bet_Proofs Double_Bet_Proofs2 Double_Bet_Proofs3.
Import ListNotations.
Local Open Scope R_scope.

(** ** Range *)

(** Rounding never makes the transformer fail its own checks: for probabilities held in doubles in [0, 1] and predictions and sides in
    {-1, 0, 1}, with or without metalabelling, averaging and discretisation, every size is a double in [0, 1]. *)
Theorem C113_range : forall cdf, double_cdf cdf -> forall c, usable c -> forall rows, Forall good_double_row rows ->
  (Z.of_nat (List.length rows) <= 2 ^ 53)%Z ->
  exists out, bet_transform_double cdf c (frame_of rows) = Ok out /\
    Forall (fun p => exists v, snd p = Fin v /\ is_double v /\ 0 <= v <= 1) out.
Proof.
  intros cdf Hcdf c Hc rows Hr Hl.
  assert (H : forall l, Forall (fun p => unit_double (snd p)) l -> Forall (fun p : Z * ext R => exists v, snd p = Fin v /\ is_double v /\ 0 <= v <= 1)
      (map (fun p => (fst p, Fin (Rabs (snd p)))) (final c l))).
  { intros l HL. destruct (finish c Hc l HL) as [_ HF]. apply Forall_forall. intros p Hp. apply in_map_iff in Hp as (q & <- & Hq). cbn [snd].
    rewrite Forall_forall in HF. destruct (HF q Hq) as [D B]. exists (Rabs (snd q)). split; auto. split; [|split; auto; apply Rabs_pos].
    unfold Rabs. destruct (Rcase_abs _); [now apply is_double_opp|auto]. }
  destruct (average_active c) eqn:Ha.
  - destruct (averages_range (map (double_position_of cdf (num_classes c) (meta_labeling c)) rows)) as (l & E & HL).
    + exact (positions_unit cdf Hcdf c rows Hr).
    + now rewrite map_length.
    + eexists. split; [exact (average_double cdf Hcdf c Hc rows Hr l Ha E HL)|]. now apply H.
  - eexists. split; [exact (plain_double cdf Hcdf c Hc rows Hr Ha)|]. apply H. apply Forall_forall. intros p Hp. apply in_map_iff in Hp as (r & <- & Hin).
    exact (bet_unit cdf Hcdf c rows Hr r Hin).
Qed.
Print Assumptions C113_range.

(** ** Sizes *)

(** Without averaging: the absolute value of prediction times confidence (times side), where the confidence is computed with every
    operation rounded and is exactly -1 and 1 at the probabilities 0 and 1; then the discretisation. *)
Theorem C113_sizes : forall cdf, double_cdf cdf -> forall c, usable c -> forall rows, Forall good_double_row rows ->
  average_active c = false ->
  bet_transform_double cdf c (frame_of rows) =
  Ok (map (fun r => (r_time r,
    let bet := Fin (double_bet_of cdf (num_classes c) (meta_labeling c) r) in
    eabs (if discretise c then match step_size c with Some s => discretise_value_double s bet | None => bet end else bet))) rows).
Proof.
  intros cdf Hcdf c Hc rows Hr Ha. rewrite (plain_double cdf Hcdf c Hc rows Hr Ha). f_equal. unfold final. destruct Hc as (_ & _ & Hd & _). cbv zeta.
  destruct (discretise c).
  - destruct (Hd eq_refl) as (s & -> & _ & Hs). rewrite !map_map. apply map_ext. intros r. cbn [fst snd]. rewrite discretise_double_fin by lra. now rewrite eabs_R.
  - rewrite map_map. apply map_ext. intros r. cbn [fst snd]. now rewrite eabs_R.
Qed.
Print Assumptions C113_sizes.

(** With averaging, for times in whole milliseconds from 1970 on: at every change point the absolute value of a double-precision mean of the
    active bets, within (k + 4) / 2^54 of their exact mean when k bets are active. *)
Theorem C113_averages : forall cdf, double_cdf cdf -> forall c, usable c -> forall rows, Forall good_double_row rows ->
  (Z.of_nat (List.length rows) <= 2 ^ 53)%Z -> average_active c = true -> discretise c = false ->
  let ps := map (double_position_of cdf (num_classes c) (meta_labeling c)) rows in
  clean_times ps ->
  exists means, increasingZ (map fst means) /\ (forall t, In t (map fst means) <-> change_point ps t) /\
    bet_transform_double cdf c (frame_of rows) = Ok (map (fun p => (fst p, Fin (Rabs (snd p)))) means) /\
    Forall (fun p => double_mean (active_bets ps (fst p)) (snd p) /\
      Rabs (snd p - mean_active ps (fst p)) <= INR (List.length (active_bets ps (fst p)) + 4) / 2 ^ 54) means.
Proof.
  intros cdf Hcdf c Hc rows Hr Hl Ha Hd ps Ht. destruct (averages_mean ps Ht) as (l & Et & E & HL).
  - exact (positions_unit cdf Hcdf c rows Hr).
  - unfold ps. now rewrite map_length.
  - exists l. rewrite Et. split; [apply np_uniqueZ_inc|]. split; [apply times_change|]. split.
    + rewrite (average_double cdf Hcdf c Hc rows Hr l Ha E) by (eapply Forall_impl; [|exact HL]; now intros ? (_ & ? & _)).
      unfold final. now rewrite Hd.
    + eapply Forall_impl; [|exact HL]. now intros ? (? & _ & ?).
Qed.
Print Assumptions C113_averages.

(** ** Confidence *)

(** A double between -1 and 1; not negative from the share 1/n (as a double) on, not positive up to it. *)
Theorem C113_sign : forall cdf, double_cdf cdf -> forall n, (2 <= n)%nat -> (Z.of_nat n <= 2 ^ 53)%Z -> forall p, is_double p -> 0 <= p <= 1 ->
  is_double (double_confidence cdf n p) /\ -1 <= double_confidence cdf n p <= 1 /\
  (to_double (1 / INR n) <= p -> 0 <= double_confidence cdf n p) /\ (p <= to_double (1 / INR n) -> double_confidence cdf n p <= 0).
Proof.
  intros cdf Hcdf n H2 H53 p D Hp. destruct (confidence_double cdf Hcdf n p) as [H1 H3]. split; auto. split; auto. now apply confidence_sign.
Qed.
Print Assumptions C113_sign.

(** From one half on, rounding preserves the order: a larger probability never gets a smaller bet. *)
Theorem C113_monotone : forall cdf, double_cdf cdf -> forall n, (2 <= n)%nat -> (Z.of_nat n <= 2 ^ 53)%Z ->
  forall p q, is_double p -> is_double q -> / 2 <= p -> p <= q -> q <= 1 ->
  0 <= double_confidence cdf n p <= double_confidence cdf n q.
Proof. exact confidence_mono. Qed.
Print Assumptions C113_monotone.

(** ** Discretisation *)

(** Any step in (0, 1): a double in [-1, 1], increasing in the bet, the same for long and short bets, and within half a step and half a
    thousandth of the bet, up to 2^-49. *)
Theorem C113_discretise : forall step, 0 < step < 1 -> exists d : R -> R,
  (forall x, discretise_value_double step (Fin x) = Fin (d x)) /\
  (forall x, is_double (d x) /\ -1 <= d x <= 1) /\ (forall x y, x <= y -> d x <= d y) /\ (forall x, d (- x) = - d x) /\
  (forall x, -1 <= x <= 1 -> Rabs (d x - x) <= step / 2 + 1 / 2000 + / 2 ^ 49).
Proof.
  intros step Hs. exists (ddisc step). split; [intros; apply discretise_double_fin; lra|]. split; [intros; split; [apply ddisc_double|apply ddisc_range]|].
  split; [intros; apply ddisc_mono; lra|]. split; [intros; apply ddisc_opp; lra|]. intros x Hx. pose proof (ddisc_near step x Hs Hx) as H.
  replace (2 ^ 49) with 562949953421312 by (rewrite (pow_IZR 2 49); reflexivity). lra.
Qed.
Print Assumptions C113_discretise.

(** A step of j thousandths, written in decimal: the double nearest to a multiple of j/1000, that multiple nearest to the bet up to 2^-50
    (or the cap at -1 or 1); discretising again changes nothing. *)
Theorem C113_decimal_step : forall j, (0 < j < 1000)%Z -> forall x, -1 <= x <= 1 -> exists (k : Z) (v : R),
  discretise_value_double (to_double (IZR j / 1000)) (Fin x) = Fin v /\
  Rabs (IZR (k * j) / 1000 - x) <= IZR j / 2000 + / 2 ^ 50 /\
  v = (if Z_lt_dec 1000 (k * j) then 1 else if Z_lt_dec (k * j) (-1000) then -1 else to_double (IZR (k * j) / 1000)) /\
  discretise_value_double (to_double (IZR j / 1000)) (Fin v) = Fin v.
Proof.
  intros j Hj x Hx. pose proof (step_bounds j Hj) as Hs. destruct (ddisc_decimal j Hj x Hx) as (k & E & N & _).
  exists k, (ddisc (to_double (IZR j / 1000)) x). rewrite !discretise_double_fin by lra. split; auto.
  replace (2 ^ 50) with 1125899906842624 by (rewrite (pow_IZR 2 50); reflexivity). split; [lra|]. split; [|now rewrite (ddisc_repeat j Hj x Hx)].
  rewrite E. unfold clip. set (t := IZR (k * j)) in *.
  destruct (Z_lt_dec 1000 (k * j)) as [L|L].
  - apply IZR_lt in L. fold t in L. assert (1 <= to_double (t / 1000)) by (apply to_double_ge_double; [apply is_double_1|lra]).
    destruct (Rlt_dec 1 _); auto. destruct (Rlt_dec _ (-1)); lra.
  - assert (to_double (t / 1000) <= 1) as U by (apply to_double_le_double; [apply is_double_1|]; assert (t <= 1000) by (apply IZR_le; lia); lra).
    destruct (Rlt_dec 1 _); [lra|]. destruct (Z_lt_dec (k * j) (-1000)) as [L'|L'].
    + apply IZR_lt in L'. fold t in L'. assert (to_double (t / 1000) <= -1) by (apply to_double_le_double; [apply is_double_m1|lra]).
      destruct (Rlt_dec _ (-1)); lra.
    + assert (-1 <= to_double (t / 1000)) as U' by (apply to_double_ge_double; [apply is_double_m1|]; assert (-1000 <= t) by (apply IZR_le; lia); lra).
      destruct (Rlt_dec _ (-1)); [lra|reflexivity].
Qed.
Print Assumptions C113_decimal_step.

(** ** A case *)
Definition ex_cdf (x : R) : R := to_double (logistic x).
Definition ex_rows : list input_row :=
  [{| r_time := 0; r_prob := 3 / 4; r_pred := 1; r_side := -1; r_end := Some 2000000%Z |};
   {| r_time := 1000000; r_prob := 1; r_pred := -1; r_side := 1; r_end := None |}].
Definition ex_config : bet_cfg := {| num_classes := 3; average_active := true; meta_labeling := true; discretise := true; step_size := Some (to_double (IZR 100 / 1000));
  bet_size_column_name := "bet_size" |}.
Lemma three_quarters : is_double (3 / 4).
Proof. exists 3%Z, (-2)%Z. repeat split; try lia. change (powerRZ 2 (-2)) with (/ (2 * (2 * 1))). lra. Qed.
Example C113_case : double_cdf ex_cdf /\ usable ex_config /\ Forall good_double_row ex_rows /\ clean_times (map (double_position_of ex_cdf 3 true) ex_rows).
Proof.
  split; [|split; [|split]].
  - destruct logistic_ok as (Hm & Hsym & Hr). split; [|split].
    + intros x. split; [apply to_double_is|]. destruct (Hr x). split; [apply to_double_nonneg; lra|apply to_double_le_double; [apply is_double_1|lra]].
    + intros x y [H|<-]; [|lra]. apply to_double_le. left. now apply Hm.
    + unfold ex_cdf. replace (logistic 0) with (/ 2) by (unfold logistic; rewrite exp_0; lra). rewrite (to_double_id _ is_double_half). lra.
  - pose proof (step_bounds 100 ltac:(lia)) as Hs. repeat split; cbn; try lia. intros _. exists (to_double (IZR 100 / 1000)). split; auto. split; [apply to_double_is|lra].
  - repeat apply Forall_cons; [| |apply Forall_nil]; (split; [split; [|split]|]); cbn; unfold sign_value; try lra; [apply three_quarters|apply is_double_1].
  - intros p [<-|[<-|[]]]; cbn; split; try reflexivity; intros e E; inversion E; subst; split; [reflexivity|lia].
Qed.
(** With step 0.1 the bet 0.375 becomes the double 0.4, and 0.99 becomes 1. *)
Example C113_value : discretise_value_double (to_double (IZR 100 / 1000)) (Fin (3 / 8)) = Fin (to_double (IZR 400 / 1000)) /\
  discretise_value_double (to_double (IZR 100 / 1000)) (Fin (99 / 100)) = Fin 1.
Proof.
  split.
  - destruct (C113_decimal_step 100 ltac:(lia) (3 / 8) ltac:(lra)) as (k & v & E & N & V & _). rewrite E.
    replace (2 ^ 50) with 1125899906842624 in N by (rewrite (pow_IZR 2 50); reflexivity). apply abs_le in N. rewrite mult_IZR in N.
    assert (k = 4)%Z as ->. { assert (3 < k)%Z by (apply lt_IZR; lra). assert (k < 5)%Z by (apply lt_IZR; lra). lia. }
    rewrite V. reflexivity.
  - destruct (C113_decimal_step 100 ltac:(lia) (99 / 100) ltac:(lra)) as (k & v & E & N & V & _). rewrite E.
    replace (2 ^ 50) with 1125899906842624 in N by (rewrite (pow_IZR 2 50); reflexivity). apply abs_le in N. rewrite mult_IZR in N.
    assert (k = 10)%Z as ->. { assert (9 < k)%Z by (apply lt_IZR; lra). assert (k < 11)%Z by (apply lt_IZR; lra). lia. }
    rewrite V. cbn. f_equal. replace (1000 / 1000) with 1 by lra. apply to_double_id, is_double_1.
Qed.

(** ** Errors *)

(** Rounding changes no error: the checks before the final one (C104) raise what they raise in exact arithmetic. *)
Theorem C113_same_errors : forall cdf cdf' c X e,
  (bet_transform_ cdf c X = Err e <-> bet_transform_double_ cdf' c X = Err e) /\
  (bet_transform_ cdf c X = Err e -> bet_transform cdf c X = Err e /\ bet_transform_double cdf' c X = Err e).
Proof.
  intros cdf cdf' c X e. pose proof (same_errors cdf cdf' c X e) as S. split; auto. intros H. pose proof (proj1 S H) as H'.
  unfold bet_transform, bet_transform_double. now rewrite H, H'.
Qed.
Print Assumptions C113_same_errors.
Example C113_error_case : forall cdf rows,
  bet_transform_double cdf {| num_classes := 2; average_active := false; meta_labeling := false; discretise := true; step_size := Some 1; bet_size_column_name := "bet_size" |} (frame_of rows)
  = Err AssertionError.
Proof.
  intros cdf rows. apply (C113_same_errors (fun _ => 0) cdf). cbn. unfold discretise_signal, step_ok.
  destruct (Rlt_dec 0 1); [|lra]. destruct (Rlt_dec 1 1); [lra|]. reflexivity.
Qed.
