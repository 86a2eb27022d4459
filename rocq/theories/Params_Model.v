(** Model of the constructors of the classes of mizarlabs and of the parts of scikit-learn (0.24, sklearn/base.py) that read and
    write the parameters of an estimator: get_params, set_params and clone. *)
From Coq Require Import String QArith.
From Verif Require Import Prelude Num.
Local Open Scope nat_scope.
Local Open Scope string_scope.

(** * Values and objects *)

(** A Python value; [VObj a] is an object (array, frame, function, estimator) at address [a]. *)
Inductive value := VInt (z : Z) | VFloat (x : ext Q) | VBool (b : bool) | VStr (s : string) | VNone | VObj (address : nat).

(** Keyword arguments, attributes: association lists; the first entry of a name counts. *)
Definition names {V} (l : list (string * V)) : list string := map fst l.
Fixpoint assoc {V} (l : list (string * V)) (n : string) : option V :=
  match l with [] => None | (k, v) :: r => if String.eqb k n then Some v else assoc r n end.
Definition has_name {V} (l : list (string * V)) (n : string) : bool := existsb (fun kv => String.eqb (fst kv) n) l.

(** `a < b`. Simplification: values that are neither numbers nor strings do not compare. *)
Definition number (v : value) : option (ext Q) :=
  match v with
  | VInt z => Some (Fin (inject_Z z))
  | VFloat x => Some x
  | VBool b => Some (Fin (if b then 1 else 0)%Q)
  | _ => None
  end.
Definition less (a b : value) : result bool :=
  match number a, number b with
  | Some x, Some y => Ok (eltb x y)
  | _, _ => match a, b with VStr s, VStr t => Ok (String.ltb s t) | _, _ => Err TypeError end
  end.
(** `bool(v)`. Simplification: every object counts as true. *)
Definition truth (v : value) : bool :=
  match v with
  | VInt z => negb (z =? 0)%Z
  | VFloat x => negb (eeqb x (Fin 0%Q))
  | VBool b => b
  | VStr s => negb (String.eqb s "")
  | VNone => false
  | VObj _ => true
  end.

(** A class: whether it derives from sklearn's BaseEstimator, the parameters of __init__ with their defaults, and the body of
    __init__, which maps the bound arguments to the attributes of the new object. *)
Record cls := {
  is_estimator : bool;
  parameters : list (string * option value);
  init : (string -> value) -> result (list (string * value))
}.
Record obj := { class_of : cls; attributes : list (string * value) }.

(** Calling a class with keyword arguments: Python rejects unknown and missing arguments. Simplification: no positional arguments. *)
Definition bound (c : cls) (kw : list (string * value)) (n : string) : value :=
  match assoc kw n with
  | Some v => v
  | None => match assoc (parameters c) n with Some (Some v) => v | _ => VNone end
  end.
Definition construct (c : cls) (kw : list (string * value)) : result obj :=
  do _ <- raise_if (existsb (fun kv => negb (has_name (parameters c) (fst kv))) kw) TypeError ;;
  do _ <- raise_if (existsb (fun p => match snd p with None => negb (has_name kw (fst p)) | Some _ => false end) (parameters c)) TypeError ;;
  do a <- init c (bound c kw) ;;
  Ok {| class_of := c; attributes := a |}.

Definition getattr (o : obj) (n : string) : result value := match assoc (attributes o) n with Some v => Ok v | None => Err AttributeError end.
Definition setattr (o : obj) (n : string) (v : value) : obj := {| class_of := class_of o; attributes := (n, v) :: attributes o |}.

(** * sklearn.base *)

(** BaseEstimator._get_param_names: the sorted names of the parameters. *)
Fixpoint insert_name (n : string) (l : list string) : list string :=
  match l with [] => [n] | m :: r => if String.leb n m then n :: l else m :: insert_name n r end.
Definition param_names (c : cls) : list string := fold_right insert_name [] (names (parameters c)).
(** BaseEstimator.get_params(deep=False). *)
Definition get_params (o : obj) : result (list (string * value)) :=
  mapM (fun n => do v <- getattr o n ;; Ok (n, v)) (param_names (class_of o)).
(** BaseEstimator.set_params: the object afterwards, and the exception if there is one. Values before an unknown name are set.
    Simplification: names of the form a__b, for parameters of parameters, are not modelled. *)
Fixpoint set_each (valid : list string) (o : obj) (kw : list (string * value)) : obj * option exn :=
  match kw with
  | [] => (o, None)
  | (n, v) :: r => if existsb (String.eqb n) valid then set_each valid (setattr o n v) r else (o, Some ValueError)
  end.
Definition set_params (o : obj) (kw : list (string * value)) : obj * option exn :=
  match kw with
  | [] => (o, None)
  | _ => match get_params o with Ok valid => set_each (names valid) o kw | Err e => (o, Some e) end
  end.
(** `x is y`. Simplification: equal numbers and strings are the same object. *)
Definition same_value (a b : value) : bool :=
  match a, b with
  | VInt x, VInt y => Z.eqb x y
  | VFloat (Fin x), VFloat (Fin y) => Qeq_bool x y
  | VFloat PInf, VFloat PInf | VFloat NInf, VFloat NInf | VFloat NaN, VFloat NaN => true
  | VBool x, VBool y => Bool.eqb x y
  | VStr x, VStr y => String.eqb x y
  | VNone, VNone => true
  | VObj x, VObj y => Nat.eqb x y
  | _, _ => false
  end.
(** clone(estimator): [copy] is what clone(parameter, safe=False) does to a value (a clone or a deep copy). It raises RuntimeError
    if the constructor does not store the copies themselves. *)
Definition clone (copy : value -> value) (o : obj) : result obj :=
  do _ <- raise_if (negb (is_estimator (class_of o))) TypeError ;;
  do params <- get_params o ;;
  let copies := map (fun p => (fst p, copy (snd p))) params in
  do o' <- construct (class_of o) copies ;;
  do stored <- get_params o' ;;
  do _ <- raise_if (negb (forallb (fun p => match assoc stored (fst p) with Some v => same_value (snd p) v | None => false end) copies)) RuntimeError ;;
  Ok o'.

(** * The constructors *)

(** features/custom.py:7-8. *)
Definition LocalMaxToCloseRatio : cls := {| is_estimator := true; parameters := [("window", None)];
  init := fun a => Ok [("window", a "window")] |}.
(** features/rolling_z_score.py:17-19. *)
Definition RollingZScoreTransformer : cls := {| is_estimator := true; parameters := [("window", None); ("to_series_func", None)];
  init := fun a => Ok [("window", a "window"); ("to_series_func", a "to_series_func")] |}.
(** microstructural_features/first_generation.py:22-24. *)
Definition init_roll_measure (window close_column_name : value) : list (string * value) :=
  [("window", window); ("close_column_name", close_column_name)].
Definition RollMeasure : cls := {| is_estimator := true; parameters := [("window", Some (VInt 20)); ("close_column_name", Some (VStr "close"))];
  init := fun a => Ok (init_roll_measure (a "window") (a "close_column_name")) |}.
(** first_generation.py:54-61. *)
Definition RollImpact : cls := {| is_estimator := true;
  parameters := [("window", Some (VInt 20)); ("close_column_name", Some (VStr "close")); ("quote_asset_volume_column_name", Some (VStr "quote_asset_volume"))];
  init := fun a => Ok (init_roll_measure (a "window") (a "close_column_name") ++ [("quote_asset_volume_column_name", a "quote_asset_volume_column_name")])%list |}.
(** first_generation.py:85-93, 183-191 and 223-231. *)
Definition high_low_parameters : list (string * option value) :=
  [("window", Some (VInt 20)); ("high_column_name", Some (VStr "high")); ("low_column_name", Some (VStr "low"))].
Definition ParkinsonVolatility : cls := {| is_estimator := true; parameters := high_low_parameters;
  init := fun a => Ok [("window", a "window"); ("high_column_name", a "high_column_name"); ("low_column_name", a "low_column_name")] |}.
Definition CorwinSchultzSpread : cls := {| is_estimator := true; parameters := high_low_parameters;
  init := fun a => Ok [("window", a "window"); ("high_column_name", a "high_column_name"); ("low_column_name", a "low_column_name")] |}.
Definition BeckersParkinsonVolatility : cls := {| is_estimator := true; parameters := high_low_parameters;
  init := fun a => Ok [("window", a "window"); ("high_column_name", a "high_column_name"); ("low_column_name", a "low_column_name")] |}.
(** second_generation.py:24-32. *)
Definition KyleLambda : cls := {| is_estimator := true;
  parameters := [("window", Some (VInt 20)); ("close_column_name", Some (VStr "close")); ("base_asset_volume_column_name", Some (VStr "base_asset_volume"))];
  init := fun a => Ok [("window", a "window"); ("close_column_name", a "close_column_name"); ("base_asset_volume_column_name", a "base_asset_volume_column_name")] |}.
(** second_generation.py:65-73 and 105-113. *)
Definition quote_parameters : list (string * option value) :=
  [("window", Some (VInt 20)); ("close_column_name", Some (VStr "close")); ("quote_asset_volume_column_name", Some (VStr "quote_asset_volume"))].
Definition AmihudLambda : cls := {| is_estimator := true; parameters := quote_parameters;
  init := fun a => Ok [("window", a "window"); ("close_column_name", a "close_column_name"); ("quote_asset_volume_column_name", a "quote_asset_volume_column_name")] |}.
Definition HasbrouckLambda : cls := {| is_estimator := true; parameters := quote_parameters;
  init := fun a => Ok [("window", a "window"); ("close_column_name", a "close_column_name"); ("quote_asset_volume_column_name", a "quote_asset_volume_column_name")] |}.
(** microstructural_features/vpin.py:33-43. *)
Definition VPIN : cls := {| is_estimator := true;
  parameters := [("window", Some (VInt 20)); ("base_asset_volume_column_name", Some (VStr "base_asset_volume"));
                 ("base_asset_buy_volume_column_name", Some (VStr "base_asset_buy_volume")); ("base_asset_sell_volume_column_name", Some (VStr "base_asset_sell_volume"))];
  init := fun a => Ok [("window", a "window"); ("base_asset_volume_column_name", a "base_asset_volume_column_name");
                       ("base_asset_buy_volume_column_name", a "base_asset_buy_volume_column_name"); ("base_asset_sell_volume_column_name", a "base_asset_sell_volume_column_name")] |}.
(** transformers/utils.py:31: no constructor of its own. *)
Definition IdentityTransformer : cls := {| is_estimator := true; parameters := []; init := fun _ => Ok [] |}.
(** technical/volume.py:8-15. *)
Definition BuySellImbalance : cls := {| is_estimator := true; parameters := [("fast", None); ("slow", None); ("volume_type", None)];
  init := fun a =>
    do _ <- raise_if (negb (existsb (same_value (a "volume_type")) [VStr "quote"; VStr "base"])) ValueError ;;
    Ok [("fast", a "fast"); ("slow", a "slow"); ("volume_type", a "volume_type")] |}.
(** targets/trend_scanning.py:44-58. *)
Definition TrendScannerLabeling : cls := {| is_estimator := true;
  parameters := [("t_events", Some VNone); ("look_forward_window", Some (VInt 20)); ("min_sample_length", Some (VInt 5)); ("step", Some (VInt 1))];
  init := fun a =>
    do ok <- less (a "min_sample_length") (a "look_forward_window") ;;
    do _ <- raise_if (negb ok) AssertionError ;;
    Ok [("t_events", a "t_events"); ("look_forward_window", a "look_forward_window"); ("min_sample_length", a "min_sample_length"); ("step", a "step")] |}.
(** model/sequentially_bootstrapped_bagging_classifier.py:216-258 and 540-580, with BaseBagging.__init__. [ind] computes the
    indicator matrix from the label spans, the bars and a column name, [mapping] the positions of the labels from spans and matrix. *)
Definition bagging_parameters : list (string * option value) :=
  [("samples_info_sets", None); ("price_bars", None); ("base_estimator", Some VNone); ("n_estimators", Some (VInt 10));
   ("max_samples", Some (VFloat (Fin 1%Q))); ("max_features", Some (VFloat (Fin 1%Q))); ("bootstrap_features", Some (VBool false));
   ("oob_score", Some (VBool false)); ("warm_start", Some (VBool false)); ("n_jobs", Some VNone); ("random_state", Some VNone);
   ("verbose", Some (VInt 0)); ("event_end_time_column_name", Some (VStr "event_end_time")); ("update_probs_every", Some (VInt 1))].
Definition BaggingClassifier (ind : value -> value -> value -> result value) (mapping : value -> value -> result value) : cls :=
  {| is_estimator := true; parameters := bagging_parameters;
     init := fun a =>
       do m <- ind (a "samples_info_sets") (a "price_bars") (a "event_end_time_column_name") ;;
       do t <- mapping (a "samples_info_sets") m ;;
       Ok [("base_estimator", a "base_estimator"); ("n_estimators", a "n_estimators"); ("bootstrap", VBool true); ("max_samples", a "max_samples");
           ("max_features", a "max_features"); ("bootstrap_features", a "bootstrap_features"); ("oob_score", a "oob_score"); ("warm_start", a "warm_start");
           ("n_jobs", a "n_jobs"); ("random_state", a "random_state"); ("verbose", a "verbose");
           ("event_end_time_column_name", a "event_end_time_column_name"); ("samples_info_sets", a "samples_info_sets"); ("price_bars", a "price_bars");
           ("_ind_mat", m); ("update_probs_every", a "update_probs_every"); ("timestamp_int_index_mapping", t); ("X_time_index", VNone)] |}.

(** sampling/average_uniqueness.py:15-16. *)
Definition init_average_uniqueness (event_end_time_column_name : value) : list (string * value) := [("_event_end_time_column_name", event_end_time_column_name)].
Definition AverageUniqueness : cls := {| is_estimator := true; parameters := [("event_end_time_column_name", Some (VStr "event_end_time"))];
  init := fun a => Ok (init_average_uniqueness (a "event_end_time_column_name")) |}.
(** sample_weights/__init__.py:26-33 and 119-125. *)
Definition SampleWeightsByReturns : cls := {| is_estimator := true;
  parameters := [("event_end_time_column_name", Some (VStr "event_end_time")); ("close_column_name", Some (VStr "close"))];
  init := fun a => Ok [("_event_end_time_column_name", a "event_end_time_column_name"); ("_close_column_name", a "close_column_name")] |}.
Definition SampleWeightsByTimeDecay : cls := {| is_estimator := true;
  parameters := [("minimum_decay_weight", None); ("event_end_time_column_name", Some (VStr "event_end_time"))];
  init := fun a => Ok (init_average_uniqueness (a "event_end_time_column_name") ++ [("_decay_factor", a "minimum_decay_weight")])%list |}.
(** sampling/down_sampling.py:16-17. *)
Definition CUSUMFilter : cls := {| is_estimator := true; parameters := [("threshold", None)]; init := fun a => Ok [("_threshold", a "threshold")] |}.
(** targets/labeling.py:35-36 and 102-128. *)
Definition init_base_labeling (n_expiration_bars : value) : list (string * value) := [("n_expiration_bars", n_expiration_bars)].
Definition TripleBarrierMethodLabeling : cls := {| is_estimator := true;
  parameters := [("num_expiration_bars", None); ("profit_taking_factor", None); ("stop_loss_factor", None); ("metalabeling", Some (VBool false));
                 ("close_column_name", Some (VStr "close")); ("side_column_name", Some (VStr "side")); ("volatility_window", Some (VInt 100));
                 ("volatility_adjusted_horizontal_barriers", Some (VBool true)); ("expiration_label", Some (VBool false))];
  init := fun a =>
    do _ <- raise_if (truth (a "metalabeling") && negb (truth (a "side_column_name"))) AssertionError ;;
    Ok (init_base_labeling (a "num_expiration_bars") ++
        [("profit_taking_factor", a "profit_taking_factor"); ("stop_loss_factor", a "stop_loss_factor"); ("metalabeling", a "metalabeling");
         ("close_column_name", a "close_column_name"); ("side_column_name", a "side_column_name");
         ("volatility_adjusted_horizontal_barriers", a "volatility_adjusted_horizontal_barriers"); ("volatility_window", a "volatility_window");
         ("expiration_label", a "expiration_label")])%list |}.
(** technical/moving_average.py:34-48; MovingAverageCrossOverPredictor (line 100) inherits it. *)
Definition MovingAverageCrossOver : cls := {| is_estimator := true;
  parameters := [("fast", None); ("slow", None); ("column_name", None); ("fill_between_crossovers", Some (VBool false))];
  init := fun a =>
    do wrong <- less (a "slow") (a "fast") ;;
    do _ <- raise_if wrong ValueError ;;
    Ok [("fast_", a "fast"); ("slow_", a "slow"); ("column_name", a "column_name"); ("fill_between_crossovers", a "fill_between_crossovers")] |}.
(** technical/macd.py:9-31. [ta name column kw_args] is TAFactory().create_transformer. *)
Definition MACDHistogramCrossOver (ta : string -> value -> list (string * value) -> result value) : cls := {| is_estimator := true;
  parameters := [("fast_period", Some (VInt 12)); ("slow_period", Some (VInt 26)); ("signal_period", Some (VInt 9)); ("column_name", Some (VStr "close"))];
  init := fun a =>
    do wrong <- less (a "slow_period") (a "fast_period") ;;
    do _ <- raise_if wrong ValueError ;;
    do t <- ta "MACD" (a "column_name") [("fastperiod", a "fast_period"); ("slowperiod", a "slow_period"); ("signalperiod", a "signal_period")] ;;
    Ok [("fast_period_", a "fast_period"); ("slow_period_", a "slow_period"); ("signal_period_", a "signal_period"); ("column_name", a "column_name");
        ("transformer_", t)] |}.
(** trading/bet_sizing.py:66-98. *)
Definition BetSizingFromProbabilities : cls := {| is_estimator := true;
  parameters := [("num_classes", None); ("average_active", Some (VBool false)); ("meta_labeling", Some (VBool false)); ("discretise", Some (VBool false));
                 ("step_size", Some VNone); ("probability_column_name", Some (VStr "prob")); ("prediction_column_name", Some (VStr "pred"));
                 ("side_column_name", Some (VStr "side")); ("event_end_time_column_name", Some (VStr "event_end_time")); ("bet_size_column_name", Some (VStr "bet_size"))];
  init := fun a =>
    do _ <- (if truth (a "discretise") then
               do _ <- raise_if (negb (truth (a "step_size"))) AssertionError ;;
               do positive <- less (VInt 0) (a "step_size") ;;
               do small <- (if positive then less (a "step_size") (VInt 1) else Ok false) ;;
               raise_if (negb small) AssertionError
             else Ok tt) ;;
    Ok [("_side_column_name", a "side_column_name"); ("_metalabeling", a "meta_labeling"); ("_average_active", a "average_active"); ("_step_size", a "step_size");
        ("_num_classes", a "num_classes"); ("_probability_column_name", a "probability_column_name"); ("_prediction_column_name", a "prediction_column_name");
        ("_event_end_time_column_name", a "event_end_time_column_name"); ("_discretise", a "discretise"); ("_bet_size_column_name", a "bet_size_column_name")] |}.

(** The classes that do not derive from BaseEstimator: technical/moving_average.py:116-129, technical/mean_reversion.py:11-17,
    technical/rsi.py:18-42 and 89-105. *)
Definition ExponentialWeightedMovingAverageDifference : cls := {| is_estimator := false;
  parameters := [("fast", None); ("slow", None); ("column_name", None); ("normalised", Some (VBool true))];
  init := fun a =>
    do wrong <- less (a "slow") (a "fast") ;;
    do _ <- raise_if wrong ValueError ;;
    Ok [("fast_", a "fast"); ("slow_", a "slow"); ("normalised", a "normalised"); ("column_name", a "column_name")] |}.
Definition MeanReversionStrategy (ta : string -> value -> list (string * value) -> result value) : cls := {| is_estimator := false;
  parameters := [("threshold", None); ("short_time_period", None)];
  init := fun a =>
    do t <- ta "EMA" (VStr "close") [("timeperiod", a "short_time_period")] ;;
    Ok [("threshold", a "threshold"); ("short_time_period", a "short_time_period"); ("short_ema_transformer", t); ("fitted_", VBool true)] |}.
Definition BarArrivalRSIStrategy (ta : string -> value -> list (string * value) -> result value) : cls := {| is_estimator := false;
  parameters := [("rsi_upper_threshold", None); ("rsi_lower_threshold", None); ("bar_arrival_upper_threshold", None); ("bar_arrival_lower_threshold", None);
                 ("rsi_timeperiod", None); ("bar_arrival_fast_period", None); ("bar_arrival_slow_period", None); ("max_bar_arrival_mean_diff", None)];
  init := fun a =>
    do t <- ta "RSI" (VStr "close") [("timeperiod", a "rsi_timeperiod")] ;;
    Ok [("rsi_high", a "rsi_upper_threshold"); ("rsi_low", a "rsi_lower_threshold"); ("rsi_timeperiod", a "rsi_timeperiod");
        ("bar_arrivals_high", a "bar_arrival_upper_threshold"); ("bar_arrivals_low", a "bar_arrival_lower_threshold"); ("rsi", t);
        ("bar_arrival_fast_period", a "bar_arrival_fast_period"); ("bar_arrival_slow_period", a "bar_arrival_slow_period");
        ("max_bar_arrival_mean_diff", a "max_bar_arrival_mean_diff"); ("fitted_", VBool true)] |}.
Definition RSIConfirmation (ta : string -> value -> list (string * value) -> result value) : cls := {| is_estimator := false;
  parameters := [("rsi_timeperiod", None); ("rsi_threshold", None); ("rsi_confirmation_period", None); ("rsi_moving_average_window", None)];
  init := fun a =>
    do t <- ta "RSI" (VStr "close") [("timeperiod", a "rsi_timeperiod")] ;;
    Ok [("rsi_timeperiod", a "rsi_timeperiod"); ("rsi_threshold", a "rsi_threshold"); ("rsi_confirmation_period", a "rsi_confirmation_period");
        ("rsi_moving_average_window", a "rsi_moving_average_window"); ("rsi", t); ("fitted_", VBool true)] |}.
