(** Model of the bar-level feature transformers and rule-based predictors: mizarlabs/transformers/features,
    mizarlabs/transformers/microstructural_features and mizarlabs/transformers/technical (without factory.py). *)
From Coq Require Import Reals String.
From Verif Require Import Series DailyVol_Model.
Local Open Scope nat_scope.

(** * Frames *)

(** A DataFrame of bars: its index (nanoseconds) and its numeric columns, by name. *)
Record frame := { f_index : list Z; f_cols : list (string * list (ext R)) }.

Definition lookup (name : string) (X : frame) : option (list (ext R)) :=
  option_map snd (find (fun c => String.eqb (fst c) name) (f_cols X)).

(** `X[name]`. *)
Definition column (name : string) (X : frame) : result (list (ext R)) :=
  match lookup name X with Some c => Ok c | None => Err KeyError end.

(** check_missing_columns (transformers/utils.py:11-14). *)
Definition check_missing_columns (X : frame) (wanted : list string) : result unit :=
  raise_if (negb (forallb (fun n => match lookup n X with Some _ => true | None => false end) wanted)) AssertionError.

(** * pandas windows *)

(** The values a window operation counts: neither missing nor infinite (pandas replaces infinities by NaN). *)
Definition finite_vals (l : list (ext R)) : list R := flat_map (fun x => match x with Fin a => [a] | _ => [] end) l.

(** `s.rolling(window=w).agg()`: [agg] of the last w values, NaN if fewer than w of them are finite.
    Simplification: exact arithmetic; aggregates of the window instead of incremental updates (Roll_Model has the updates,
    C105 proves them equal); windows are positive. *)
Definition rolling (w : nat) (agg : list R -> ext R) (l : list (ext R)) : list (ext R) :=
  map (fun i => let v := finite_vals (slice (S i - w) (S i) l) in if Nat.leb w (List.length v) then agg v else NaN)
      (seq 0 (List.length l)).

Definition agg_sum (v : list R) : ext R := Fin (lsum v).
Definition mean (v : list R) : R := (lsum v / INR (List.length v))%R.
Definition agg_mean (v : list R) : ext R := match v with [] => NaN | _ => Fin (mean v) end.
Definition agg_max (v : list R) : ext R := match v with [] => NaN | x :: r => Fin (fold_left Rmax r x) end.
Definition agg_min (v : list R) : ext R := match v with [] => NaN | x :: r => Fin (fold_left Rmin r x) end.
(** Sample standard deviation (ddof = 1). *)
Definition variance (v : list R) : R :=
  (lsum (map (fun x => (x - mean v) * (x - mean v)) v) / (INR (List.length v) - 1))%R.
Definition agg_std (v : list R) : ext R := if Nat.leb (List.length v) 1 then NaN else Fin (sqrt (variance v)).

Definition finite_pairs (l : list (ext R * ext R)) : list (R * R) :=
  flat_map (fun p => match p with (Fin a, Fin b) => [(a, b)] | _ => [] end) l.
(** Sample covariance of pairs: (mean(xy) - mean(x) mean(y)) * (n / (n - 1)); for n = 1 pandas multiplies 0 by infinity. *)
Definition agg_cov (v : list (R * R)) : ext R :=
  if Nat.leb (List.length v) 1 then NaN
  else Fin ((mean (map (fun p => fst p * snd p)%R v) - mean (map fst v) * mean (map snd v)) *
            (INR (List.length v) / (INR (List.length v) - 1)))%R.
(** `s.rolling(window=w).cov(t)` for series with the same index. *)
Definition rolling_cov (w : nat) (s t : list (ext R)) : list (ext R) :=
  let l := combine s t in
  map (fun i => let v := finite_pairs (slice (S i - w) (S i) l) in if Nat.leb w (List.length v) then agg_cov v else NaN)
      (seq 0 (List.length l)).

(** `s.ewm(span=k).mean()` (adjust=True, ignore_na=False): weights (1-alpha)^(i-j), alpha = 2/(k+1). With span 1 the mean is
    the last observation, also where the value is missing. Simplification: closed form instead of the incremental update
    (Ewm_Model has the update, C105 proves them equal); the span is at least 1. *)
Definition ewm_mean_at (span : R) (l : list (ext R)) (k : nat) : ext R :=
  match ewm_obs span l k with
  | [] => NaN
  | obs => if Req_EM_T (1 - 2 / (span + 1)) 0 then Fin (snd (last obs (0, 0)))%R
           else Fin (lsum (map (fun o => fst o * snd o) obs) / lsum (map fst obs))%R
  end.
Definition ewm_mean (span : R) (l : list (ext R)) : list (ext R) := map (ewm_mean_at span l) (seq 0 (List.length l)).

(** Element-wise functions: `np.square`, `x ** 0.5`, `np.sign`. *)
Definition esquare (x : ext R) : ext R := emul x x.
Definition epow_half (v : ext R) : ext R := match v with NInf => PInf | _ => esqrt v end.
Definition esgn (x : ext R) : ext R :=
  match x with NaN => NaN | _ => match esign x with Lt => Fin (-1)%R | Eq => Fin 0%R | Gt => Fin 1%R end end.

(** * features/custom.py *)

(** LocalMaxToCloseRatio.transform (lines 10-13). *)
Definition local_max_to_close (window : nat) (X : frame) : result (list (ext R)) :=
  do high <- column "high" X ;;
  do close <- column "close" X ;;
  Ok (zipw ediv (rolling window agg_max high) close).

(** * features/rolling_z_score.py *)

(** calc_z_score (lines 33-44). *)
Definition calc_z_score (window : nat) (x : list (ext R)) : list (ext R) :=
  zipw ediv (zipw esub x (rolling window agg_mean x)) (rolling window agg_std x).
(** transform (lines 21-31). *)
Definition z_score_transform (window : nat) (to_series : frame -> result (list (ext R))) (X : frame) : result (list (ext R)) :=
  do series <- to_series X ;;
  Ok (calc_z_score window series).

(** Lines 47-57. Simplification: times are exact numbers. *)
Definition bar_arrival_time (X : frame) : result (list (ext R)) := Ok (diff (map (fun t => Fin (IZR t)) (f_index X))).
Definition buy_sell_diff (X : frame) : result (list (ext R)) :=
  do b <- column "quote_asset_buy_volume" X ;;
  do s <- column "quote_asset_sell_volume" X ;;
  Ok (zipw esub b s).
Definition average_buy_size (X : frame) : result (list (ext R)) :=
  do b <- column "quote_asset_buy_volume" X ;;
  do n <- column "num_buy_ticks" X ;;
  Ok (zipw ediv b n).
Definition high_to_low_ratio (X : frame) : result (list (ext R)) :=
  do h <- column "high" X ;;
  do l <- column "low" X ;;
  Ok (zipw ediv h l).

(** RollingZScoreTransformerFactory.types and get_transformer (lines 59-86). *)
Definition z_score_types : list (string * (frame -> result (list (ext R)))) :=
  [("bar_arrival_time"%string, bar_arrival_time); ("buy_sell_diff"%string, buy_sell_diff);
   ("average_buy_size"%string, average_buy_size); ("high_to_low_ratio"%string, high_to_low_ratio)].
Definition get_transformer (key : string) (window : nat) : result (frame -> result (list (ext R))) :=
  match find (fun p => String.eqb (fst p) key) z_score_types with
  | Some p => Ok (z_score_transform window (snd p))
  | None => Err KeyError
  end.

(** * microstructural_features/first_generation.py *)

(** RollMeasure.transform (lines 29-36). *)
Definition roll_measure (window : nat) (close_name : string) (X : frame) : result (list (ext R)) :=
  do _ <- check_missing_columns X [close_name] ;;
  do close <- column close_name X ;;
  let close_diff := diff close in
  let close_diff_lag := shift1 close_diff in
  Ok (map (fun c => emul (Fin 2%R) (esqrt (eabs c))) (rolling_cov window close_diff close_diff_lag)).

(** RollImpact.transform (lines 66-70). *)
Definition roll_impact (window : nat) (close_name volume_name : string) (X : frame) : result (list (ext R)) :=
  do m <- roll_measure window close_name X ;;
  do v <- column volume_name X ;;
  Ok (zipw ediv m v).

(** ParkinsonVolatility.transform (lines 98-110). *)
Definition parkinson (window : nat) (high_name low_name : string) (X : frame) : result (list (ext R)) :=
  do _ <- check_missing_columns X [high_name; low_name] ;;
  do h <- column high_name X ;;
  do l <- column low_name X ;;
  let parkinson_constant := (1 / (4 * ln 2))%R in
  Ok (rolling window agg_mean (map (fun r => emul (Fin parkinson_constant) (esquare (elog r))) (zipw ediv h l))).

(** _get_beta (lines 113-130), _get_gamma (lines 133-147), _get_alpha (lines 150-165). *)
Definition get_beta (h l : list (ext R)) (window : nat) : list (ext R) :=
  rolling window agg_mean (rolling 2 agg_sum (map esquare (map elog (zipw ediv h l)))).
Definition get_gamma (h l : list (ext R)) : list (ext R) :=
  map esquare (map elog (zipw ediv (rolling 2 agg_max h) (rolling 2 agg_min l))).
Definition den_cs : R := (3 - 2 * sqrt 2)%R.
Definition set_negative_to_zero (x : ext R) : ext R := if eltb x (Fin 0%R) then Fin 0%R else x.
Definition get_alpha (beta gamma : list (ext R)) : list (ext R) :=
  map set_negative_to_zero
    (zipw esub (map (fun b => ediv (emul (Fin (sqrt 2 - 1)%R) (epow_half b)) (Fin den_cs)) beta)
               (map (fun g => epow_half (ediv g (Fin den_cs))) gamma)).

(** CorwinSchultzSpread.transform (lines 196-205). *)
Definition corwin_schultz (window : nat) (high_name low_name : string) (X : frame) : result (list (ext R)) :=
  do _ <- check_missing_columns X [high_name; low_name] ;;
  do h <- column high_name X ;;
  do l <- column low_name X ;;
  let alpha := get_alpha (get_beta h l window) (get_gamma h l) in
  Ok (map (fun a => ediv (emul (Fin 2%R) (esub (eexp a) (Fin 1%R))) (eadd (Fin 1%R) (eexp a))) alpha).

(** BeckersParkinsonVolatility.transform (lines 236-248). *)
Definition beckers_parkinson (window : nat) (high_name low_name : string) (X : frame) : result (list (ext R)) :=
  do _ <- check_missing_columns X [high_name; low_name] ;;
  do h <- column high_name X ;;
  do l <- column low_name X ;;
  let beta := get_beta h l window in
  let gamma := get_gamma h l in
  let k2 := sqrt (8 / PI) in
  let sigma := map (fun b => ediv (emul (Fin (1 / sqrt 2 - 1)%R) (epow_half b)) (Fin (k2 * den_cs)%R)) beta in
  let sigma := zipw eadd sigma (map (fun g => epow_half (ediv g (Fin (k2 * k2 * den_cs)%R))) gamma) in
  Ok (map set_negative_to_zero sigma).

(** * microstructural_features/second_generation.py *)

(** KyleLambda.transform (lines 37-47). *)
Definition kyle_lambda (window : nat) (close_name volume_name : string) (X : frame) : result (list (ext R)) :=
  do _ <- check_missing_columns X [close_name; volume_name] ;;
  do c <- column close_name X ;;
  do v <- column volume_name X ;;
  Ok (rolling window agg_mean (zipw ediv (map eabs (diff c)) v)).

(** AmihudLambda.transform (lines 78-87). *)
Definition amihud_lambda (window : nat) (close_name volume_name : string) (X : frame) : result (list (ext R)) :=
  do _ <- check_missing_columns X [close_name; volume_name] ;;
  do c <- column close_name X ;;
  do v <- column volume_name X ;;
  Ok (rolling window agg_mean (zipw ediv (map eabs (diff (map elog c))) v)).

(** HasbrouckLambda.transform (lines 118-129). *)
Definition hasbrouck_lambda (window : nat) (close_name volume_name : string) (X : frame) : result (list (ext R)) :=
  do _ <- check_missing_columns X [close_name; volume_name] ;;
  do c <- column close_name X ;;
  do v <- column volume_name X ;;
  Ok (rolling window agg_mean (zipw ediv (map eabs (diff (map elog c))) (map esqrt v))).

(** * microstructural_features/vpin.py *)

(** VPIN.transform (lines 48-82): from row [window] on missing values become 0, and none may be left. *)
Definition vpin (window : nat) (volume_name buy_name sell_name : string) (X : frame) : result (list (ext R)) :=
  do _ <- check_missing_columns X [volume_name; buy_name; sell_name] ;;
  do volume <- column volume_name X ;;
  do buy <- column buy_name X ;;
  do sell <- column sell_name X ;;
  let total_volume_windowed_sum := rolling window agg_sum volume in
  let diff_volume := rolling window agg_sum (map eabs (zipw esub buy sell)) in
  let vpin_feature := zipw ediv diff_volume total_volume_windowed_sum in
  let vpin_feature := firstn window vpin_feature ++ map (fun x => if is_nan x then Fin 0%R else x) (skipn window vpin_feature) in
  do _ <- raise_if (existsb is_nan (skipn window vpin_feature)) AssertionError ;;
  Ok vpin_feature.

(** * technical/moving_average.py *)

(** The constructors' check (lines 42-43 and 124-125; also technical/macd.py:17-18). *)
Definition check_fast_slow (fast slow : nat) : result unit := raise_if (Nat.ltb slow fast) ValueError.

(** The index labels selected by `fast_ma[mask].index` in _get_up_cross_indices and _get_down_cross_indices (lines 81-97). *)
Definition up_cross_indices (idx : list Z) (fast_ma slow_ma : list (ext R)) : list Z :=
  let cond_0 := zipw eleb (shift1 fast_ma) (shift1 slow_ma) in
  let cond_1 := zipw (fun f s => eltb s f) fast_ma slow_ma in
  mask_sel idx (zipw andb cond_0 cond_1).
Definition down_cross_indices (idx : list Z) (fast_ma slow_ma : list (ext R)) : list Z :=
  let cond_0 := zipw (fun f s => eleb s f) (shift1 fast_ma) (shift1 slow_ma) in
  let cond_1 := zipw eltb fast_ma slow_ma in
  mask_sel idx (zipw andb cond_0 cond_1).
(** `side.loc[labels] = v`: every row whose label is listed. *)
Definition loc_set (idx : list Z) (labels : list Z) (v : ext R) (side : list (ext R)) : list (ext R) :=
  zipw (fun t x => if existsb (Z.eqb t) labels then v else x) idx side.
(** `ffill`, `fillna(0)`. *)
Fixpoint ffill_from (last : ext R) (l : list (ext R)) : list (ext R) :=
  match l with
  | [] => []
  | x :: r => let y := if is_nan x then last else x in y :: ffill_from y r
  end.
Definition ffill (l : list (ext R)) : list (ext R) := ffill_from NaN l.
Definition fillna0 (l : list (ext R)) : list (ext R) := map (fun x => if is_nan x then Fin 0%R else x) l.

(** MovingAverageCrossOver.transform (lines 52-79). *)
Definition ma_crossover (fast slow : nat) (fill_between_crossovers : bool) (name : string) (X : frame) : result (list (ext R)) :=
  do c <- column name X ;;
  let fast_ma := rolling fast agg_mean c in
  let slow_ma := rolling slow agg_mean c in
  let idx := f_index X in
  let side := map (fun _ => if fill_between_crossovers then NaN else Fin 0%R) idx in
  let side := loc_set idx (down_cross_indices idx fast_ma slow_ma) (Fin (-1)%R) side in
  let side := loc_set idx (up_cross_indices idx fast_ma slow_ma) (Fin 1%R) side in
  Ok (fillna0 (ffill side)).

(** ExponentialWeightedMovingAverageDifference.transform (lines 134-145). *)
Definition ewma_difference (fast slow : R) (normalised : bool) (name : string) (X : frame) : result (list (ext R)) :=
  do c <- column name X ;;
  let fast_ewma := ewm_mean fast c in
  let slow_ewma := ewm_mean slow c in
  let d := zipw esub fast_ewma slow_ewma in
  Ok (if normalised then zipw ediv d (map (fun x => eadd x (Fin 1%R)) fast_ewma) else d).

(** predict_proba of the rule-based predictors (technical/moving_average.py:107-112, mean_reversion.py:30-35,
    rsi.py:77-82 and 126-131): one column for each class. *)
Definition one_hot (classes : list R) (predictions : list (ext R)) : list (list R) :=
  map (fun p => map (fun c => if eeqb p (Fin c) then 1%R else 0%R) classes) predictions.
Definition ma_predict := ma_crossover.
Definition ma_predict_proba (fast slow : nat) (fill : bool) (name : string) (X : frame) : result (list (list R)) :=
  do p <- ma_predict fast slow fill name X ;; Ok (one_hot [(-1)%R; 0%R; 1%R] p).

(** * technical/volume.py *)

(** BuySellImbalance.__init__ (lines 10-15) and transform (lines 20-35), for a volume type. *)
Definition bsi_construct (volume_type : string) : result string :=
  if existsb (String.eqb volume_type) ["quote"%string; "base"%string] then Ok volume_type else Err ValueError.
Definition buy_sell_imbalance (fast slow : R) (volume_type : string) (X : frame) : result (list (ext R)) :=
  do b <- column (volume_type ++ "_asset_buy_volume") X ;;
  do s <- column (volume_type ++ "_asset_sell_volume") X ;;
  let fast_diff := zipw esub (ewm_mean fast b) (ewm_mean fast s) in
  let slow_diff := zipw esub (ewm_mean slow b) (ewm_mean slow s) in
  do v <- column (volume_type ++ "_asset_volume") X ;;
  Ok (zipw ediv (zipw esub fast_diff slow_diff) (map (fun x => eadd x (Fin 1%R)) v)).

(** * technical/macd.py, mean_reversion.py, rsi.py

    TA-Lib functions are arguments: [ta] maps the input column to the output column that is used. The factory's transformer
    (factory.py:123-144) checks that the column exists. *)
Definition ta_transform (ta : list (ext R) -> list (ext R)) (name : string) (X : frame) : result (list (ext R)) :=
  match lookup name X with Some c => Ok (ta c) | None => Err ValueError end.

(** MACDHistogramCrossOver.transform (macd.py:36-40); [hist] is the third output of MACD. *)
Definition macd_crossover (hist : list (ext R) -> list (ext R)) (name : string) (X : frame) : result (list (ext R)) :=
  do h <- ta_transform hist name X ;;
  Ok (map (fun x => ediv x (Fin 2%R)) (diff (map esgn h))).

(** MeanReversionStrategy.predict (mean_reversion.py:19-28) and predict_proba (lines 30-35). *)
Definition mean_reversion_predict (ema : list (ext R) -> list (ext R)) (threshold : R) (X : frame) : result (list (ext R)) :=
  do short_ema <- ta_transform ema "close" X ;;
  do close <- column "close" X ;;
  let d := zipw ediv (zipw esub close short_ema) short_ema in
  Ok (map (fun x => if eltb x (Fin (- threshold)%R) then Fin 1%R
                    else if eltb (Fin threshold) x then Fin (-1)%R else Fin 0%R) d).
Definition mean_reversion_predict_proba (ema : list (ext R) -> list (ext R)) (threshold : R) (X : frame) : result (list (list R)) :=
  do p <- mean_reversion_predict ema threshold X ;; Ok (one_hot [(-1)%R; 0%R; 1%R] p).

Definition of_bool (b : bool) : ext R := Fin (if b then 1%R else 0%R).

(** BarArrivalRSIStrategy.predict (rsi.py:44-75): the arrival times have no value in the first row, where the signal is
    then false. Simplification: the index is strictly increasing. *)
Record bar_rsi_cfg := { rsi_upper : R; rsi_lower : R; arr_upper : R; arr_lower : R; arr_fast : nat; arr_slow : nat; max_diff : Z }.
Definition bar_rsi_predict (rsi : list (ext R) -> list (ext R)) (c : bar_rsi_cfg) (X : frame) : result (list (ext R)) :=
  let idx := map (fun t => Fin (IZR t)) (f_index X) in
  let bar_arrival_time := skipn 1 (diff idx) in
  let slow := rolling (arr_slow c) agg_mean bar_arrival_time in
  let fast := rolling (arr_fast c) agg_mean bar_arrival_time in
  let n := map (fun x => ediv x (Fin (IZR (max_diff c)))) (zipw esub fast slow) in
  do r <- ta_transform rsi "close" X ;;
  let arrival_ok := firstn (List.length idx) (false :: map (fun x => eltb x (Fin (arr_upper c)) && eltb (Fin (arr_lower c)) x) n) in
  Ok (zipw (fun x b => of_bool (eltb (Fin (rsi_lower c)) x && eltb x (Fin (rsi_upper c)) && b)) r arrival_ok).
Definition bar_rsi_predict_proba (rsi : list (ext R) -> list (ext R)) (c : bar_rsi_cfg) (X : frame) : result (list (list R)) :=
  do p <- bar_rsi_predict rsi c X ;; Ok (one_hot [0%R; 1%R] p).

(** RSIConfirmation.predict (rsi.py:107-124). *)
Definition all_true (v : list R) : ext R := of_bool (forallb (fun x => if Req_EM_T x 0 then false else true) v).
Definition rsi_confirmation_predict (rsi : list (ext R) -> list (ext R)) (threshold : R) (confirmation_period ma_window : nat) (X : frame)
  : result (list (ext R)) :=
  do r <- ta_transform rsi "close" X ;;
  let increasing := map (fun x => eltb (Fin 0%R) x) (diff (rolling ma_window agg_mean r)) in
  let below := rolling confirmation_period all_true (map (fun x => of_bool (eltb x (Fin threshold))) r) in
  let below := map (fun x => negb (eeqb x (Fin 0%R))) (fillna0 below) in
  Ok (zipw (fun a b => of_bool (a && b)) below increasing).
Definition rsi_confirmation_predict_proba (rsi : list (ext R) -> list (ext R)) (threshold : R) (confirmation_period ma_window : nat) (X : frame)
  : result (list (list R)) :=
  do p <- rsi_confirmation_predict rsi threshold confirmation_period ma_window X ;; Ok (one_hot [0%R; 1%R] p).
