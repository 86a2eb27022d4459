(** Vocabulary for the parameters of estimators. *)
From Coq Require Import String QArith.
From Verif Require Import Prelude Num Params_Model.
Local Open Scope string_scope.

(** In a call of the class with these keyword arguments the parameter [n] has the value [v]: the one given, or else the default. *)
Definition takes (c : cls) (kw : list (string * value)) (n : string) (v : value) : Prop :=
  In n (map fst (parameters c)) /\ (In (n, v) kw \/ (~ In n (map fst kw) /\ In (n, Some v) (parameters c))).
(** A call as Python accepts it: no argument twice. *)
Definition call (kw : list (string * value)) : Prop := NoDup (map fst kw).
(** The object reports exactly these values for its parameters. *)
Definition reports (o : obj) (P : string -> value -> Prop) : Prop :=
  exists l, get_params o = Ok l /\ forall n v, In (n, v) l <-> P n v.
(** Deep copies: numbers, strings and None stay, an object becomes an object. *)
Definition copying (copy : value -> value) : Prop :=
  forall v, match v with VObj _ => exists b, copy v = VObj b | _ => copy v = v end.

(** The estimators whose constructor keeps its arguments under their own names, and the others. *)
Definition keeping (ind : value -> value -> value -> result value) (mapping : value -> value -> result value) : list cls :=
  [LocalMaxToCloseRatio; RollingZScoreTransformer; RollMeasure; RollImpact; ParkinsonVolatility; CorwinSchultzSpread; BeckersParkinsonVolatility;
   KyleLambda; AmihudLambda; HasbrouckLambda; VPIN; IdentityTransformer; BuySellImbalance; TrendScannerLabeling; BaggingClassifier ind mapping].
Definition renaming (ta : string -> value -> list (string * value) -> result value) : list cls :=
  [AverageUniqueness; SampleWeightsByReturns; SampleWeightsByTimeDecay; CUSUMFilter; TripleBarrierMethodLabeling; MovingAverageCrossOver;
   MACDHistogramCrossOver ta; BetSizingFromProbabilities].
(** The keeping classes whose constructor does nothing else, and those that also check their arguments. *)
Definition plain : list cls :=
  [LocalMaxToCloseRatio; RollingZScoreTransformer; RollMeasure; RollImpact; ParkinsonVolatility; CorwinSchultzSpread; BeckersParkinsonVolatility;
   KyleLambda; AmihudLambda; HasbrouckLambda; VPIN; IdentityTransformer].
Definition checking : list cls := [BuySellImbalance; TrendScannerLabeling].
(** The parameters after a call with [kw] and set_params with [new]. *)
Definition after_setting (c : cls) (kw new : list (string * value)) (n : string) (v : value) : Prop :=
  In (n, v) new \/ (~ In n (map fst new) /\ takes c kw n v).
(** Objects that no method can tell apart. *)
Definition same_object (o o' : obj) : Prop := class_of o = class_of o' /\ forall n, getattr o n = getattr o' n.

(** What the methods read (first), and the parameter of the constructor whose value the documentation says it is (second). *)
Definition used (ta : string -> value -> list (string * value) -> result value) : list (cls * list (string * string)) := [
  (* sampling/average_uniqueness.py:18-38 *)
  (AverageUniqueness, [("_event_end_time_column_name", "event_end_time_column_name")]);
  (* sample_weights/__init__.py:35-97 and 127-140 *)
  (SampleWeightsByReturns, [("_event_end_time_column_name", "event_end_time_column_name"); ("_close_column_name", "close_column_name")]);
  (SampleWeightsByTimeDecay, [("_event_end_time_column_name", "event_end_time_column_name"); ("_decay_factor", "minimum_decay_weight")]);
  (* sampling/down_sampling.py:19-47 *)
  (CUSUMFilter, [("_threshold", "threshold")]);
  (* targets/labeling.py:38-70 and 130-205 *)
  (TripleBarrierMethodLabeling, [("n_expiration_bars", "num_expiration_bars"); ("profit_taking_factor", "profit_taking_factor"); ("stop_loss_factor", "stop_loss_factor");
    ("metalabeling", "metalabeling"); ("close_column_name", "close_column_name"); ("side_column_name", "side_column_name"); ("volatility_window", "volatility_window");
    ("volatility_adjusted_horizontal_barriers", "volatility_adjusted_horizontal_barriers"); ("expiration_label", "expiration_label")]);
  (* technical/moving_average.py:52-97 *)
  (MovingAverageCrossOver, [("fast_", "fast"); ("slow_", "slow"); ("column_name", "column_name"); ("fill_between_crossovers", "fill_between_crossovers")]);
  (* technical/moving_average.py:134-145 *)
  (ExponentialWeightedMovingAverageDifference, [("fast_", "fast"); ("slow_", "slow"); ("column_name", "column_name"); ("normalised", "normalised")]);
  (* trading/bet_sizing.py:100-139 *)
  (BetSizingFromProbabilities, [("_num_classes", "num_classes"); ("_average_active", "average_active"); ("_metalabeling", "meta_labeling"); ("_discretise", "discretise");
    ("_step_size", "step_size"); ("_probability_column_name", "probability_column_name"); ("_prediction_column_name", "prediction_column_name");
    ("_side_column_name", "side_column_name"); ("_event_end_time_column_name", "event_end_time_column_name"); ("_bet_size_column_name", "bet_size_column_name")]);
  (* technical/mean_reversion.py:19-28 *)
  (MeanReversionStrategy ta, [("threshold", "threshold")]);
  (* technical/rsi.py:44-75 *)
  (BarArrivalRSIStrategy ta, [("rsi_high", "rsi_upper_threshold"); ("rsi_low", "rsi_lower_threshold"); ("bar_arrivals_high", "bar_arrival_upper_threshold");
    ("bar_arrivals_low", "bar_arrival_lower_threshold"); ("bar_arrival_fast_period", "bar_arrival_fast_period"); ("bar_arrival_slow_period", "bar_arrival_slow_period");
    ("max_bar_arrival_mean_diff", "max_bar_arrival_mean_diff")]);
  (* technical/rsi.py:107-124 *)
  (RSIConfirmation ta, [("rsi_threshold", "rsi_threshold"); ("rsi_confirmation_period", "rsi_confirmation_period"); ("rsi_moving_average_window", "rsi_moving_average_window")])].
(** The indicators built by a constructor: the attribute, the name of the indicator, the column and the settings, each a parameter
    of the indicator with the parameter of the constructor whose value it is to have. *)
Inductive column := Given_by (n : string) | Fixed (s : string).
Definition indicators (ta : string -> value -> list (string * value) -> result value) : list (cls * (string * string * column * list (string * string))) := [
  (MACDHistogramCrossOver ta, ("transformer_", "MACD", Given_by "column_name", [("fastperiod", "fast_period"); ("slowperiod", "slow_period"); ("signalperiod", "signal_period")]));
  (MeanReversionStrategy ta, ("short_ema_transformer", "EMA", Fixed "close", [("timeperiod", "short_time_period")]));
  (BarArrivalRSIStrategy ta, ("rsi", "RSI", Fixed "close", [("timeperiod", "rsi_timeperiod")]));
  (RSIConfirmation ta, ("rsi", "RSI", Fixed "close", [("timeperiod", "rsi_timeperiod")]))].
Definition is_column (c : cls) (kw : list (string * value)) (col : column) (v : value) : Prop :=
  match col with Given_by n => takes c kw n v | Fixed s => v = VStr s end.
(** A call that Python binds: known names only, each at most once, and every parameter without a default is given. *)
Definition proper (c : cls) (kw : list (string * value)) : Prop :=
  call kw /\ (forall n, In n (map fst kw) -> In n (map fst (parameters c))) /\ (forall n, In (n, None) (parameters c) -> In n (map fst kw)).
(** The value is this rational number (True and False are the numbers 1 and 0). *)
Definition is_number (v : value) (q : Q) : Prop :=
  match v with VInt z => q = inject_Z z | VFloat x => x = Fin q | VBool b => q = (if b then 1 else 0)%Q | _ => False end.
(** The values that count as false: None, False, zero and the empty string. *)
Definition falsy (v : value) : Prop :=
  match v with VNone => True | VBool b => b = false | VInt z => z = 0%Z | VFloat x => exists q, x = Fin q /\ (q == 0)%Q | VStr s => s = "" | VObj _ => False end.
(** Values that Python cannot compare: all but two numbers or two strings. *)
Inductive sort := Number | Text | Neither.
Definition sort_of (v : value) : sort := match v with VInt _ | VFloat _ | VBool _ => Number | VStr _ => Text | VNone | VObj _ => Neither end.
Definition incomparable (a b : value) : Prop := ~ (sort_of a = Number /\ sort_of b = Number) /\ ~ (sort_of a = Text /\ sort_of b = Text).
(** The constructors that compare two of their arguments, with the names of these. *)
Definition comparing (ta : string -> value -> list (string * value) -> result value) : list (cls * (string * string)) := [
  (MovingAverageCrossOver, ("fast", "slow")); (ExponentialWeightedMovingAverageDifference, ("fast", "slow"));
  (MACDHistogramCrossOver ta, ("fast_period", "slow_period")); (TrendScannerLabeling, ("min_sample_length", "look_forward_window"))].
Definition accepted (r : result obj) : Prop := exists o, r = Ok o.

(** * Defaults *)

(** The optional parameters of each class and the values the documentation gives them. *)
Definition bar_columns (l : list (string * string)) : list (string * value) := ("window", VInt 20) :: map (fun p => (fst p, VStr (snd p))) l.
Definition documented_defaults (ind : value -> value -> value -> result value) (mapping : value -> value -> result value)
    (ta : string -> value -> list (string * value) -> result value) : list (cls * list (string * value)) := [
  (LocalMaxToCloseRatio, []); (RollingZScoreTransformer, []); (IdentityTransformer, []); (BuySellImbalance, []); (CUSUMFilter, []);
  (RollMeasure, bar_columns [("close_column_name", "close")]);
  (RollImpact, bar_columns [("close_column_name", "close"); ("quote_asset_volume_column_name", "quote_asset_volume")]);
  (ParkinsonVolatility, bar_columns [("high_column_name", "high"); ("low_column_name", "low")]);
  (CorwinSchultzSpread, bar_columns [("high_column_name", "high"); ("low_column_name", "low")]);
  (BeckersParkinsonVolatility, bar_columns [("high_column_name", "high"); ("low_column_name", "low")]);
  (KyleLambda, bar_columns [("close_column_name", "close"); ("base_asset_volume_column_name", "base_asset_volume")]);
  (AmihudLambda, bar_columns [("close_column_name", "close"); ("quote_asset_volume_column_name", "quote_asset_volume")]);
  (HasbrouckLambda, bar_columns [("close_column_name", "close"); ("quote_asset_volume_column_name", "quote_asset_volume")]);
  (VPIN, bar_columns [("base_asset_volume_column_name", "base_asset_volume"); ("base_asset_buy_volume_column_name", "base_asset_buy_volume");
                      ("base_asset_sell_volume_column_name", "base_asset_sell_volume")]);
  (TrendScannerLabeling, [("t_events", VNone); ("look_forward_window", VInt 20); ("min_sample_length", VInt 5); ("step", VInt 1)]);
  (BaggingClassifier ind mapping, [("base_estimator", VNone); ("n_estimators", VInt 10); ("max_samples", VFloat (Fin 1%Q)); ("max_features", VFloat (Fin 1%Q));
    ("bootstrap_features", VBool false); ("oob_score", VBool false); ("warm_start", VBool false); ("n_jobs", VNone); ("random_state", VNone); ("verbose", VInt 0);
    ("event_end_time_column_name", VStr "event_end_time"); ("update_probs_every", VInt 1)]);
  (AverageUniqueness, [("event_end_time_column_name", VStr "event_end_time")]);
  (SampleWeightsByReturns, [("event_end_time_column_name", VStr "event_end_time"); ("close_column_name", VStr "close")]);
  (SampleWeightsByTimeDecay, [("event_end_time_column_name", VStr "event_end_time")]);
  (TripleBarrierMethodLabeling, [("metalabeling", VBool false); ("close_column_name", VStr "close"); ("side_column_name", VStr "side"); ("volatility_window", VInt 100);
    ("volatility_adjusted_horizontal_barriers", VBool true); ("expiration_label", VBool false)]);
  (MovingAverageCrossOver, [("fill_between_crossovers", VBool false)]);
  (MACDHistogramCrossOver ta, [("fast_period", VInt 12); ("slow_period", VInt 26); ("signal_period", VInt 9); ("column_name", VStr "close")]);
  (BetSizingFromProbabilities, [("average_active", VBool false); ("meta_labeling", VBool false); ("discretise", VBool false); ("step_size", VNone);
    ("probability_column_name", VStr "prob"); ("prediction_column_name", VStr "pred"); ("side_column_name", VStr "side");
    ("event_end_time_column_name", VStr "event_end_time"); ("bet_size_column_name", VStr "bet_size")]);
  (ExponentialWeightedMovingAverageDifference, [("normalised", VBool true)]);
  (MeanReversionStrategy ta, []); (BarArrivalRSIStrategy ta, []); (RSIConfirmation ta, [])].
(** Attributes that have a fixed value whatever the arguments. *)
Definition fixed_attributes (ind : value -> value -> value -> result value) (mapping : value -> value -> result value)
    (ta : string -> value -> list (string * value) -> result value) : list (cls * string * value) := [
  (BaggingClassifier ind mapping, "bootstrap", VBool true);
  (MeanReversionStrategy ta, "fitted_", VBool true); (BarArrivalRSIStrategy ta, "fitted_", VBool true); (RSIConfirmation ta, "fitted_", VBool true)].
