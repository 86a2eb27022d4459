(** Bet sizing (C36, C37, C38, C104) and timestamps (C59). *)
From Coq Require Import Reals Lra Lia ZArith String.
From Verif Require Import Series Weights_Model Weights_Spec Bet_Model Bet_Spec Bet_Proofs Bet_Proofs2 Bet_Proofs3 Bet_Proofs4.
Local Open Scope nat_scope.

(** ** C36: bet size *)

(** The signed confidence in a prediction lies in [-1, 1], is zero at probability 1/n and strictly increasing. *)
Theorem C36_confidence : forall cdf, cdf_ok cdf -> forall n, 2 <= n ->
  (forall p, (-1 <= confidence cdf n p <= 1)%R) /\
  confidence cdf n (1 / INR n) = 0%R /\ confidence cdf n 0 = (-1)%R /\ confidence cdf n 1 = 1%R /\
  (forall p q, (0 <= p)%R -> (p < q)%R -> (q <= 1)%R -> (confidence cdf n p < confidence cdf n q)%R).
Proof. exact c36_confidence. Qed.
Print Assumptions C36_confidence.

(** Without averaging and discretisation the transformer returns, for each row, the absolute value of prediction times
    confidence (times side for metalabelling). *)
Theorem C36_sizes : forall cdf, cdf_ok cdf -> forall c, 2 <= num_classes c -> forall rows, Forall good_row rows ->
  average_active c = false -> discretise c = false ->
  bet_transform cdf c (frame_of rows) =
  Ok (map (fun r => (r_time r, Fin (Rabs (bet_of cdf (num_classes c) (meta_labeling c) r)))) rows).
Proof. exact sizes. Qed.
Print Assumptions C36_sizes.
Example C36_case : cdf_ok logistic /\
  Forall good_row [{| r_time := 0; r_prob := 0.75; r_pred := 1; r_side := -1; r_end := None |};
                   {| r_time := 1; r_prob := 0.25; r_pred := -1; r_side := 0; r_end := Some 9%Z |}].
Proof. split; [exact logistic_ok|]. repeat constructor; cbn; unfold sign_value; auto; lra. Qed.

(** Whatever the input, column names and options, a returned size is a number in [0, 1]. *)
Theorem C36_range : forall cdf c X out, bet_transform cdf c X = Ok out ->
  Forall (fun p => exists v, snd p = Fin v /\ (0 <= v <= 1)%R) out.
Proof. exact range. Qed.
Print Assumptions C36_range.

(** A probability outside [0, 1] is rejected, and so is probability 1 for a single class. *)
Theorem C36_invalid_probability : forall cdf c X r p, has_prob X = true -> has_pred X = true -> 1 <= num_classes c ->
  meta_labeling c = false -> average_active c = false -> discretise c = false ->
  In r (b_rows X) -> b_prob r = Fin p -> (~ (0 <= p <= 1)%R \/ num_classes c = 1 /\ p = 1%R) ->
  bet_transform cdf c X = Err AssertionError.
Proof. exact invalid_probability. Qed.
Print Assumptions C36_invalid_probability.

(** The constructor accepts a discretised transformer exactly if the step is given and strictly between 0 and 1. *)
Theorem C36_constructor : forall c,
  bet_construct c = Ok c /\ (discretise c = false \/ exists s, step_size c = Some s /\ (0 < s < 1)%R) \/
  bet_construct c = Err AssertionError /\ discretise c = true /\ (forall s, step_size c = Some s -> ~ (0 < s < 1)%R).
Proof. exact construct_ok. Qed.
Print Assumptions C36_constructor.

(** Above 1/n the size grows with the probability. *)
Theorem C36_high_probability : forall cdf n p q, cdf_ok cdf -> 2 <= n -> (1 / INR n <= p)%R -> (p < q)%R -> (q <= 1)%R ->
  exists sp sq, bet_transform cdf (plain n) (frame_of [long_row 0 p; long_row 1 q]) = Ok [(0%Z, Fin sp); (1%Z, Fin sq)] /\ (sp < sq)%R.
Proof. exact high_sizes. Qed.
Print Assumptions C36_high_probability.

(** Below 1/n it falls: the less probable the prediction, the larger the returned size, up to 1 at probability 0. *)
Theorem C36_low_probability_refuted : forall cdf n p q, cdf_ok cdf -> 2 <= n -> (0 <= p)%R -> (p < q)%R -> (q <= 1 / INR n)%R ->
  exists sp sq, bet_transform cdf (plain n) (frame_of [long_row 0 p; long_row 1 q]) = Ok [(0%Z, Fin sp); (1%Z, Fin sq)] /\ (sq < sp)%R /\
    (p = 0%R -> sp = 1%R).
Proof. exact low_sizes. Qed.
Print Assumptions C36_low_probability_refuted.
Example C36_low_case : (0 <= 0.1 /\ 0.1 < 0.3 /\ 0.3 <= 1 / INR 2)%R.
Proof. cbn. lra. Qed.

(** ** C37: average of the active signals *)

(** For times in whole milliseconds and ends not before 1970: one value for each time at which a position opens or
    closes, in order, and it is the mean of the positions active at that time. *)
Theorem C37_mean_of_active : forall ps, clean_times ps -> exists times, increasingZ times /\
  (forall t, In t times <-> change_point ps t) /\
  avg_active_signals (map signal_of ps) = map (fun t => (t, Fin (mean_active ps t))) times.
Proof. exact c37. Qed.
Print Assumptions C37_mean_of_active.
Example C37_case : clean_times [((0, Some 5000000)%Z, 1%R); ((2000000%Z, None), (-1)%R)].
Proof. intros p [<-|[<-|[]]]; cbn; split; try reflexivity; intros e [= <-]. split; [reflexivity|lia]. Qed.

(** The mean lies between the smallest and the largest active signal. *)
Theorem C37_between : forall ps t lo hi, active_bets ps t <> [] -> (forall x, In x (active_bets ps t) -> (lo <= x <= hi)%R) ->
  (lo <= mean_active ps t <= hi)%R.
Proof. exact c37_between. Qed.
Print Assumptions C37_between.

(** The transformer with averaging: absolute value of the mean of the active signed bets. *)
Theorem C37_transform : forall cdf, cdf_ok cdf -> forall c, 2 <= num_classes c -> forall rows, Forall good_row rows ->
  average_active c = true -> discretise c = false -> bet_size_column_name c = "bet_size"%string ->
  clean_times (map (position_of cdf (num_classes c) (meta_labeling c)) rows) ->
  exists times, increasingZ times /\
    (forall t, In t times <-> change_point (map (position_of cdf (num_classes c) (meta_labeling c)) rows) t) /\
    bet_transform cdf c (frame_of rows) =
    Ok (map (fun t => (t, Fin (Rabs (mean_active (map (position_of cdf (num_classes c) (meta_labeling c)) rows) t)))) times).
Proof. exact sizes_average. Qed.
Print Assumptions C37_transform.

(** A position that ended before 1970 is averaged as if it were still open. *)
Theorem C37_old_end_refuted : forall s e b, (s < e < 0)%Z ->
  avg_active_signals (map signal_of [((s, Some e), b)]) = [(s, Fin b); (e, Fin b)] /\ mean_active [((s, Some e), b)] e = 0%R.
Proof. exact c37_old. Qed.
Print Assumptions C37_old_end_refuted.

(** A position opened and closed within one millisecond is never active. *)
Theorem C37_same_millisecond_refuted : forall s e b, (0 <= s < e)%Z -> to_ms s = to_ms e ->
  avg_active_signals (map signal_of [((s, Some e), b)]) = [(s, Fin 0%R); (e, Fin 0%R)] /\ mean_active [((s, Some e), b)] s = b.
Proof. exact c37_same_ms. Qed.
Print Assumptions C37_same_millisecond_refuted.

(** With averaging, no column name other than the default works. *)
Theorem C37_column_name_refuted : forall cdf c X out, average_active c = true -> bet_size_column_name c <> "bet_size"%string ->
  bet_transform cdf c X <> Ok out.
Proof. exact custom_column. Qed.
Print Assumptions C37_column_name_refuted.

(** ** C38: discretisation *)

(** A finite signal is discretised row by row to a finite signal. *)
Theorem C38_defined : forall step signal, (0 < step < 1)%R -> (forall p, In p signal -> exists v, snd p = Fin v) ->
  exists out, discretise_signal step signal = Ok out /\ map fst out = map fst signal /\ Forall (fun p => exists v, snd p = Fin v) out.
Proof. exact c38_defined. Qed.
Print Assumptions C38_defined.

(** Its values are in [-1, 1], monotone and odd in the signal; on signals in [-1, 1] they are within half a step (and
    half the rounding unit 1/1000) of the signal, and repeating the discretisation changes nothing. *)
Theorem C38_values : forall step x y vx vy, (0 < step < 1)%R ->
  discretise_signal step [(0%Z, Fin x); (0%Z, Fin y)] = Ok [(0%Z, Fin vx); (0%Z, Fin vy)] ->
  (-1 <= vx <= 1)%R /\ ((x <= y)%R -> (vx <= vy)%R) /\
  discretise_signal step [(0%Z, Fin (- x)%R)] = Ok [(0%Z, Fin (- vx)%R)] /\
  ((-1 <= x <= 1)%R -> (Rabs (vx - x) <= step / 2 + 1 / 2000)%R /\
                       discretise_signal step [(0%Z, Fin vx)] = Ok [(0%Z, Fin vx)]).
Proof. exact c38_values. Qed.
Print Assumptions C38_values.

(** For a step of k thousandths the value is a nearest multiple of the step, capped to [-1, 1]. *)
Theorem C38_nearest_multiple : forall k x, (0 < k < 1000)%Z -> exists v, nearest_multiple (IZR k / 1000) x v /\
  discretise_signal (IZR k / 1000) [(0%Z, Fin x)] = Ok [(0%Z, Fin (if Rlt_dec 1 v then 1 else if Rlt_dec v (-1) then -1 else v)%R)].
Proof. exact c38_multiple. Qed.
Print Assumptions C38_nearest_multiple.

(** The transformer with discretisation: absolute values of the discretised signed bets. *)
Theorem C38_transform : forall cdf, cdf_ok cdf -> forall c, 2 <= num_classes c -> forall rows, Forall good_row rows ->
  forall step, average_active c = false -> discretise c = true -> step_size c = Some step -> (0 < step < 1)%R ->
  exists vs, discretise_signal step (map (fun r => (r_time r, Fin (bet_of cdf (num_classes c) (meta_labeling c) r))) rows) = Ok vs /\
    bet_transform cdf c (frame_of rows) = Ok (map (fun p => (fst p, eabs (snd p))) vs).
Proof. exact c38_transform. Qed.
Print Assumptions C38_transform.

(** A signal outside [-1, 1] can change again when the discretisation is repeated. *)
Theorem C38_out_of_range_refuted :
  discretise_signal (7 / 10) [(0%Z, Fin 5%R)] = Ok [(0%Z, Fin 1%R)] /\
  discretise_signal (7 / 10) [(0%Z, Fin 1%R)] = Ok [(0%Z, Fin (7 / 10)%R)].
Proof. exact c38_out_of_range. Qed.
Print Assumptions C38_out_of_range_refuted.

(** ** C59: timestamps in milliseconds *)

(** Conversion rounds down to a whole millisecond. *)
Theorem C59_rounds_down : forall t, (to_timestamp (Some t) * 1000000 <= t < (to_timestamp (Some t) + 1) * 1000000)%Z.
Proof. exact to_ms_floor. Qed.
Print Assumptions C59_rounds_down.

(** It preserves order. *)
Theorem C59_monotone : forall a b, (a <= b)%Z -> (to_timestamp (Some a) <= to_timestamp (Some b))%Z.
Proof. exact to_ms_mono. Qed.
Print Assumptions C59_monotone.

(** Two times have the same timestamp exactly if they fall in the same millisecond. *)
Theorem C59_injective_on_milliseconds : forall a b, to_timestamp (Some a) = to_timestamp (Some b) <->
  (exists k, k * 1000000 <= a < (k + 1) * 1000000 /\ k * 1000000 <= b < (k + 1) * 1000000)%Z.
Proof. exact to_ms_eq. Qed.
Print Assumptions C59_injective_on_milliseconds.

(** A timestamp is negative exactly for a missing time or one before 1970: the two cannot be told apart by sign. *)
Theorem C59_negative : forall t, (to_timestamp t < 0)%Z <-> (t = None \/ exists v, t = Some v /\ v < 0)%Z.
Proof. exact to_timestamp_missing. Qed.
Print Assumptions C59_negative.
Example C59_case : to_timestamp (Some 1999999%Z) = 1%Z /\ to_timestamp (Some (-1)%Z) = (-1)%Z /\ (to_timestamp None < 0)%Z.
Proof. repeat split. Qed.

(** ** C104: what the transformer rejects, and how *)

(** Without probabilities or predictions. *)
Theorem C104_no_probability : forall cdf c X, has_prob X = false \/ has_pred X = false -> bet_transform cdf c X = Err AssertionError.
Proof. exact bet_no_probability. Qed.
Print Assumptions C104_no_probability.
Theorem C104_no_classes : forall cdf c X, has_prob X = true -> has_pred X = true -> num_classes c = 0 -> bet_transform cdf c X = Err ZeroDivisionError.
Proof. exact bet_zero_classes. Qed.
Print Assumptions C104_no_classes.
(** For metalabelling, without sides, or with a side that is missing or not -1, 0 or 1. *)
Theorem C104_no_side : forall cdf c X, has_prob X = true -> has_pred X = true -> num_classes c <> 0 -> meta_labeling c = true -> has_side X = false ->
  bet_transform cdf c X = Err KeyError.
Proof. exact bet_no_side. Qed.
Print Assumptions C104_no_side.
Theorem C104_wrong_side : forall cdf c X r, has_prob X = true -> has_pred X = true -> num_classes c <> 0 -> meta_labeling c = true -> has_side X = true ->
  In r (b_rows X) -> ~ (exists v, b_side r = Fin v /\ sign_value v) -> bet_transform cdf c X = Err AssertionError.
Proof. exact bet_wrong_side. Qed.
Print Assumptions C104_wrong_side.
(** For averaging, without end times, or with another name for the column of sizes. *)
Theorem C104_averaging : forall cdf c X, has_prob X = true -> has_pred X = true -> num_classes c <> 0 ->
  (meta_labeling c = true -> has_side X = true /\ forall r, In r (b_rows X) -> exists v, b_side r = Fin v /\ sign_value v) ->
  average_active c = true -> has_end X = false \/ bet_size_column_name c <> "bet_size"%string -> bet_transform cdf c X = Err KeyError.
Proof. exact bet_averaging. Qed.
Print Assumptions C104_averaging.
Example C104_case : let r := {| b_time := 0; b_prob := Fin (3 / 4)%R; b_pred := Fin 1%R; b_side := NaN; b_end := None |} in
  let X := {| has_prob := true; has_pred := true; has_side := true; has_end := false; b_rows := [r] |} in
  In r (b_rows X) /\ ~ (exists v, b_side r = Fin v /\ sign_value v).
Proof. split; [now left|]. intros (v & E & _). discriminate E. Qed.
