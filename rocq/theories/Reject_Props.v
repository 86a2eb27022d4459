(** C99: unusable inputs are rejected with a definite exception. *)
From Coq Require Import Reals String Lra QArith.
From Verif Require Import Prelude PreludeFacts Num Series Boot_Model Weights_Model Bet_Model Break_Model TAFactory_Model Reject_Spec Reject_Proofs.
Open Scope nat_scope.

(** Labels: those without an end or with a repeated start are rejected, and so are an empty frame, labels none of which covers any
    boundary and labels all of which cover all boundaries. All others are accepted. *)
Theorem C99_labels : forall X,
  (forall t, In (t, None) X -> average_uniqueness_transform X = Err AssertionError) /\
  (~ NoDup (map fst X) -> average_uniqueness_transform X = Err AssertionError) /\
  (X = [] -> average_uniqueness_transform X = Err ValueError) /\
  (forall samples, X = map (fun s => (fst s, Some (snd s))) samples -> samples <> [] -> NoDup (map fst samples) ->
    let inside := exists t s e, boundary samples t /\ In (s, e) samples /\ (s <= t <= e)%Z in
    let outside := exists t s e, boundary samples t /\ In (s, e) samples /\ ~ (s <= t <= e)%Z in
    ((exists out, average_uniqueness_transform X = Ok out) <-> inside /\ outside) /\
    (~ (inside /\ outside) -> average_uniqueness_transform X = Err AssertionError)).
Proof. exact uniqueness_errors. Qed.
Print Assumptions C99_labels.

(** The weights that decay with time reject the same labels in the same way. *)
Theorem C99_decay : forall c X e, (c <= 1)%Q -> average_uniqueness_transform X = Err e -> decay_transform c X = Err e.
Proof. exact decay_same. Qed.
Print Assumptions C99_decay.

Example C99_labels_case :
  average_uniqueness_transform [(1, Some 3); (2, None)]%Z = Err AssertionError /\ average_uniqueness_transform [(1, Some 3); (1, Some 4)]%Z = Err AssertionError /\
  average_uniqueness_transform [(1, Some 3)]%Z = Err AssertionError /\ is_ok (average_uniqueness_transform [(1, Some 3); (2, Some 4)]%Z) = true /\
  decay_transform (1 # 2) [(1, Some 3)]%Z = Err AssertionError.
Proof. vm_compute. auto. Qed.

(** The bet sizer: the probabilities and predictions must be there; for metalabeling so must the sides, each 1, -1 or 0; for the
    average of the active bets so must the end times. *)
Theorem C99_bets : forall cdf c X,
  (has_prob X = false \/ has_pred X = false -> bet_transform cdf c X = Err AssertionError) /\
  (has_prob X = true -> has_pred X = true -> 1 <= num_classes c ->
    (meta_labeling c = true -> has_side X = false -> bet_transform cdf c X = Err KeyError) /\
    (meta_labeling c = true -> has_side X = true -> forall r, In r (b_rows X) -> b_side r <> Fin 1%R -> b_side r <> Fin (-1)%R -> b_side r <> Fin 0%R ->
      bet_transform cdf c X = Err AssertionError) /\
    ((meta_labeling c = true -> has_side X = true /\ forall r, In r (b_rows X) -> b_side r = Fin 1%R \/ b_side r = Fin (-1)%R \/ b_side r = Fin 0%R) ->
      average_active c = true -> has_end X = false -> bet_transform cdf c X = Err KeyError)).
Proof. exact bet_errors. Qed.
Print Assumptions C99_bets.
Example C99_bets_case : exists X c r, has_prob X = true /\ has_pred X = true /\ 1 <= num_classes c /\ meta_labeling c = true /\ has_side X = true /\ In r (b_rows X) /\
  b_side r <> Fin 1%R /\ b_side r <> Fin (-1)%R /\ b_side r <> Fin 0%R /\ has_end X = false /\ average_active c = true.
Proof.
  exists {| has_prob := true; has_pred := true; has_side := true; has_end := false; b_rows := [{| b_time := 5; b_prob := Fin (1 / 2)%R; b_pred := Fin 1%R; b_side := NaN; b_end := None |}] |},
    {| num_classes := 2; average_active := true; meta_labeling := true; discretise := false; step_size := None; bet_size_column_name := "bet_size" |},
    {| b_time := 5; b_prob := Fin (1 / 2)%R; b_pred := Fin 1%R; b_side := NaN; b_end := None |}.
  cbn. repeat split; auto; discriminate.
Qed.

(** Bets are rounded to multiples of a step strictly between 0 and 1 only. *)
Theorem C99_step : forall step signal, ~ (0 < step < 1)%R -> discretise_signal step signal = Err AssertionError.
Proof. exact discretise_rejects. Qed.
Print Assumptions C99_step.

(** The models of the logarithm of prices reject a negative price. *)
Theorem C99_prices : forall inv model lags m const phi s t v, In model ["sm_poly_2"; "sm_exp"; "sm_power"]%string -> In (t, v) s -> (v < 0)%R ->
  sadf_run inv model lags m const phi s = Err AssertionError.
Proof. exact sadf_negative. Qed.
Print Assumptions C99_prices.
Example C99_prices_case : In "sm_exp"%string ["sm_poly_2"; "sm_exp"; "sm_power"]%string /\ In (2%Z, (-3)%R) [(1%Z, 5%R); (2%Z, (-3)%R); (3%Z, 4%R)] /\ (-3 < 0)%R /\ ~ (0 < 1 < 1)%R.
Proof. cbn. repeat split; auto; lra. Qed.

(** A function of TA-Lib without a doc string. *)
Theorem C99_undocumented : forall V d name f col m kw, get_ta_func V d name = Ok f -> ta_doc V f = None -> create_transformer V d name col m kw = Err TypeError.
Proof. exact no_doc. Qed.
Print Assumptions C99_undocumented.
Example C99_undocumented_case : let f := Build_ta_func nat None (fun _ _ => Ok (One [])) in get_ta_func nat [("F"%string, f)] "F" = Ok f /\ create_transformer nat [("F"%string, f)] "F" CNone MNone None = Err TypeError.
Proof. split; reflexivity. Qed.
