(** Model of mizarlabs/model/pipeline.py: StrategySignalPipeline and StrategyTrader. *)
From Coq Require Import String DecimalString.
From Verif Require Import Prelude Num Series.
Global Open Scope nat_scope.

(** * Dictionaries and frames *)

(** A Python dictionary in insertion order; the keys are distinct. *)
Definition dict (V : Type) := list (string * V).
Definition keys {V} (d : dict V) : list string := map fst d.
Fixpoint lookup {V} (d : dict V) (k : string) : result V :=
  match d with [] => Err KeyError | (k', v) :: r => if String.eqb k' k then Ok v else lookup r k end.
(** Equality of the sets of keys. *)
Definition same_keys (a b : list string) : bool := forallb (fun k => existsb (String.eqb k) b) a && forallb (fun k => existsb (String.eqb k) a) b.

Section Pipeline.
  Context {A : Type} {HA : Arith A}.
  Notation cell := (ext A).

  (** A DataFrame with a datetime index (in nanoseconds). In a proper frame all rows have as many cells as there are columns. *)
  Record frame := { columns : list string; rows : list (Z * list cell) }.
  Definition index (f : frame) : list Z := map fst (rows f).
  (** A Series. *)
  Definition series := list (Z * cell).

  (** `df.dropna()`, `s.dropna()`. *)
  Definition complete_row (r : Z * list cell) : bool := forallb (fun x => negb (is_nan x)) (snd r).
  Definition dropna (f : frame) : frame := {| columns := columns f; rows := filter complete_row (rows f) |}.
  Definition dropna_s (s : series) : series := filter (fun e => negb (is_nan (snd e))) s.
  (** `df.loc[labels]`: all rows of each label in turn; a missing label raises KeyError. *)
  Definition loc {V} (l : list (Z * V)) (labels : list Z) : result (list (Z * V)) :=
    do parts <- mapM (fun t => match filter (fun r => Z.eqb (fst r) t) l with [] => Err KeyError | p => Ok p end) labels ;; Ok (concat parts).
  Definition loc_f (f : frame) (labels : list Z) : result frame := do r <- loc (rows f) labels ;; Ok {| columns := columns f; rows := r |}.
  Definition unique_index (l : list Z) : bool := Nat.eqb (length (np_uniqueZ l)) (length l).
  Definition same_index (a b : list Z) : bool := Nat.eqb (length a) (length b) && forallb (fun p => Z.eqb (fst p) (snd p)) (combine a b).

  (** The row of a label, NaN in all cells if there is none. *)
  Definition row_at (f : frame) (t : Z) : list cell :=
    match filter (fun r => Z.eqb (fst r) t) (rows f) with r :: _ => snd r | [] => repeat NaN (length (columns f)) end.
  (** Rows side by side. *)
  Definition beside (a b : list (Z * list cell)) : list (Z * list cell) := map (fun p => (fst (fst p), snd (fst p) ++ snd (snd p))) (combine a b).
  (** `pd.concat([...], axis=1)`: side by side if the indices are equal; otherwise on the union of the times, which must be
      unique in each frame (the kind of the error depends on the version of pandas: ValueError or InvalidIndexError).
      Simplification: the union is in increasing order (which pandas does for increasing indices). *)
  Definition concat2 (a b : frame) : result frame :=
    let cols := columns a ++ columns b in
    if same_index (index a) (index b) then Ok {| columns := cols; rows := beside (rows a) (rows b) |}
    else if unique_index (index a) && unique_index (index b) then
      Ok {| columns := cols; rows := map (fun t => (t, row_at a t ++ row_at b t)) (np_uniqueZ (index a ++ index b)) |}
    else Err ValueError.
  Definition concat_outer (l : list frame) : result frame := match l with [] => Err ValueError | f :: r => foldM concat2 f r end.
  (** `pd.concat([a, b], axis=1, join="inner")`. Simplification: the common times are in the order of the first frame. *)
  Definition concat_inner (a b : frame) : result frame :=
    let cols := columns a ++ columns b in
    if same_index (index a) (index b) then Ok {| columns := cols; rows := beside (rows a) (rows b) |}
    else if unique_index (index a) && unique_index (index b) then
      Ok {| columns := cols; rows := map (fun r => (fst r, snd r ++ row_at b (fst r))) (filter (fun r => existsb (Z.eqb (fst r)) (index b)) (rows a)) |}
    else Err ValueError.
  (** The value of a series at a label, NaN if there is none. *)
  Definition series_at (s : series) (t : Z) : cell := match filter (fun e => Z.eqb (fst e) t) s with e :: _ => snd e | [] => NaN end.
  (** The values that `df[name] = series` stores in the rows of a frame with these times. *)
  Definition aligned_values (times : list Z) (s : series) : result (list cell) :=
    if same_index times (map fst s) then Ok (map snd s)
    else if unique_index (map fst s) then Ok (map (series_at s) times) else Err ValueError.
  (** `df[name] = series`, for a new column. *)
  Definition add_column (f : frame) (name : string) (s : series) : result frame :=
    do v <- aligned_values (index f) s ;;
    Ok {| columns := columns f ++ [name]; rows := beside (rows f) (combine (index f) (map (fun x => [x]) v)) |}.
  (** `pd.Series(values, index=times)`: the lengths must agree. *)
  Definition make_series {V} (times : list Z) (values : list V) : result (list (Z * V)) :=
    if Nat.eqb (length times) (length values) then Ok (combine times values) else Err ValueError.

  (** * The strategy pipeline *)

  (** A model: its name-blind view of the data are the rows of values. [classes_] and [n_classes_] are attributes.
      Simplification: `if self.metalabeling_model:` is true of every model. (A scikit-learn ensemble that is not fitted has no
      truth value: it raises AttributeError in place of NotFittedError.) *)
  Record model := {
    predict : list (list cell) -> result (list cell);
    predict_proba : list (list cell) -> result (list (list cell));
    classes : list cell;
    n_classes : nat;
    fitted : bool
  }.
  Record pipeline := {
    primary_transformers : dict (option (frame -> result frame));
    meta_transformers : dict (option (frame -> result frame));
    align_on : string; align_how : dict string;
    primary_model : option model; metalabeling_model : option model;
    use_proba : bool; use_predictions : bool;
    (* BetSizingFromProbabilities.transform on the columns prob, pred and (with a metalabeling model) side; see Bet_Model.v *)
    bet_sizer : option (list (Z * (cell * cell * option cell)) -> result series);
    closing_positions_model : option (dict frame -> result (option string))
  }.

  (** ** _align_on (lines 165-245) *)

  (** numpy's min and max over an axis: NaN if there is a NaN. *)
  Definition nan_min (x y : cell) : cell := if is_nan x || is_nan y then NaN else if eltb y x then y else x.
  Definition nan_max (x y : cell) : cell := if is_nan x || is_nan y then NaN else if eltb x y then y else x.
  (** _align_methods (lines 111-115), for one column of at least one value. *)
  Definition align_method (name : string) : result (list cell -> cell) :=
    if String.eqb name "mean" then Ok (fun l => ediv (esum l) (Fin (anat (length l))))
    else if String.eqb name "min" then Ok (fun l => match l with x :: r => fold_left nan_min r x | [] => NaN end)
    else if String.eqb name "max" then Ok (fun l => match l with x :: r => fold_left nan_max r x | [] => NaN end)
    else Err KeyError.
  (** `method(values, axis=0)`; the cells all exist in a proper frame. *)
  Definition over_rows (m : list cell -> cell) (width : nat) (values : list (list cell)) : list cell :=
    map (fun c => m (map (fun row => nth c row NaN) values)) (seq 0 width).
  (** `df.loc[t] = values`. *)
  Definition set_loc (rs : list (Z * list cell)) (t : Z) (values : list cell) : list (Z * list cell) :=
    map (fun r => if Z.eqb (fst r) t then (fst r, values) else r) rs.
  (** `df.ffill()`. *)
  Definition fill_row (before row : list cell) : list cell := map (fun p => if is_nan (snd p) then fst p else snd p) (combine before row).
  Fixpoint ffill_from (before : list cell) (rs : list (Z * list cell)) : list (Z * list cell) :=
    match rs with [] => [] | (t, row) :: r => let row' := fill_row before row in (t, row') :: ffill_from row' r end.
  Definition ffill (width : nat) (rs : list (Z * list cell)) : list (Z * list cell) := ffill_from (repeat NaN width) rs.

  (** 1 January 1700 (line 202) in nanoseconds since 1970. *)
  Definition year_1700 : Z := (-8520336000000000000)%Z.
  (** One round of the loop over the alignment index (lines 224-239); the state is previous_index and the aligned frame. *)
  Definition align_step (how : dict string) (key : string) (f : frame) (st : Z * list (Z * list cell)) (t : Z) : result (Z * list (Z * list cell)) :=
    let subset := filter (fun r => (fst st <? fst r)%Z && (fst r <=? t)%Z) (rows f) in
    if Nat.eqb (length (columns f)) 0 then Ok st else (* then the frame is always `empty` *)
    match subset with
    | [] => Ok st
    | [r] => Ok (t, set_loc (snd st) t (snd r))
    | _ =>
        do name <- lookup how key ;;
        do m <- align_method name ;;
        Ok (t, set_loc (snd st) t (over_rows m (length (columns f)) (map snd subset)))
    end.
  (** Lines 199-243 for one frame. The warning (208-222) only matters in that it indexes both ends. *)
  Definition align_frame (how : dict string) (key : string) (alignment : list Z) (f : frame) : result frame :=
    match rows f, alignment with
    | [], _ | _, [] => Err IndexError
    | _, _ =>
        let empty := map (fun t => (t, repeat NaN (length (columns f)))) alignment in
        do st <- foldM (align_step how key f) (year_1700, empty) alignment ;;
        Ok {| columns := columns f; rows := ffill (length (columns f)) (snd st) |}
    end.
  Definition align_dict (p : pipeline) (alignment : list Z) (d : dict frame) : result (dict frame) :=
    mapM (fun kf => if String.eqb (fst kf) (align_on p) then Ok kf else do f <- align_frame (align_how p) (fst kf) alignment (snd kf) ;; Ok (fst kf, f)) d.
  (** X_features_dict has the two keys "primary_model_features" and "metalabeling_model_features". *)
  Definition align (p : pipeline) (features : dict frame * dict frame) : result (dict frame * dict frame) :=
    if String.eqb (align_on p) "" then Ok features
    else
      do lead <- lookup (fst features) (align_on p) ;;
      do primary <- align_dict p (index lead) (fst features) ;;
      do meta <- align_dict p (index lead) (snd features) ;;
      Ok (primary, meta).

  (** ** transform (lines 344-379) *)
  Definition run_transformers (ts : dict (option (frame -> result frame))) (X : dict frame) : result (dict frame) :=
    mapM (fun kt => do f <- lookup X (fst kt) ;;
                    do g <- match snd kt with Some tr => tr f | None => Ok f end ;; Ok (fst kt, g)) ts.
  Definition transform (p : pipeline) (X : dict frame) : result (dict frame * dict frame) :=
    do _ <- raise_if (negb (same_keys (keys (primary_transformers p) ++ keys (meta_transformers p)) (keys X))) AssertionError ;;
    do primary <- run_transformers (primary_transformers p) X ;;
    do meta <- run_transformers (meta_transformers p) X ;;
    Ok (primary, meta).
  Definition features_of (p : pipeline) (X : dict frame) : result (dict frame * dict frame) := do t <- transform p X ;; align p t.

  (** ** Data sets *)

  (** sklearn's check_X_y, as far as it matters: lengths, at least one sample and one feature, no NaN and no infinity. *)
  Definition is_finite (x : cell) : bool := match x with Fin _ => true | _ => false end.
  Definition check_X_y (X : frame) (y : series) : result unit :=
    raise_if (Nat.eqb (length (rows X)) 0 || Nat.eqb (length (columns X)) 0 || negb (Nat.eqb (length (rows X)) (length y))
              || negb (forallb (fun r => forallb is_finite (snd r)) (rows X)) || negb (forallb (fun e => is_finite (snd e)) y)) ValueError.
  (** _align_X_dict_and_y (lines 316-342). *)
  Definition align_X_dict_and_y (X : dict frame) (y : series) (drop_na : bool) : result (frame * series) :=
    if drop_na then
      let y_no_nans := dropna_s y in
      do parts <- mapM (fun f => loc_f f (map fst y_no_nans)) (map snd X) ;;
      do X <- concat_outer parts ;;
      let X_aligned := dropna X in
      do y_aligned <- loc y (index X_aligned) ;;
      do _ <- check_X_y X_aligned y_aligned ;;
      Ok (X_aligned, y_aligned)
    else do X <- concat_outer (map snd X) ;; Ok (X, y).
  (** `set(np.unique(y.dropna())).issubset({-1, 0, 1})` (lines 619, 666). *)
  Definition is_label (x : cell) : bool := eeqb x (Fin (aopp a1)) || eeqb x (Fin a0) || eeqb x (Fin a1).
  Definition labels_ok (y : series) : bool := forallb (fun e => is_label (snd e)) (dropna_s y).

  (** create_dataset_primary (lines 646-680). *)
  Definition create_dataset_primary (p : pipeline) (X : dict frame) (y : series) (drop_na : bool) : result (frame * series) :=
    do _ <- raise_if (negb (labels_ok y)) AssertionError ;;
    do fs <- features_of p X ;;
    align_X_dict_and_y (fst fs) y drop_na.

  (** Calling a method of a model that has not been set. *)
  Definition need (m : option model) : result model := match m with Some m => Ok m | None => Err AttributeError end.
  Definition values (f : frame) : list (list cell) := map snd (rows f).
  (** The names of the columns with the probabilities (lines 275-277 and 414-417). *)
  Definition proba_name (i : nat) : string := ("primary_side_pred_proba_" ++ NilZero.string_of_uint (Nat.to_uint i))%string.
  Definition proba_columns (n : nat) : list string := map proba_name (seq 0 n).
  (** `pd.DataFrame(values, index=..., columns=...)` (lines 411-418): the shape must fit. *)
  Definition make_frame (times : list Z) (cols : list string) (vs : list (list cell)) : result frame :=
    if Nat.eqb (length times) (length vs) && forallb (fun v => Nat.eqb (length v) (length cols)) vs then Ok {| columns := cols; rows := combine times vs |} else Err ValueError.
  (** _get_features_for_metalabeling (lines 381-434). *)
  Definition features_for_metalabeling (p : pipeline) (X_primary : frame) (fs : dict frame * dict frame) : result frame :=
    do X <- concat_outer (map snd (snd fs)) ;;
    let X := dropna X in
    do X <- (if use_predictions p then
               do m <- need (primary_model p) ;; do v <- predict m (values X_primary) ;; do s <- make_series (index X_primary) v ;; add_column X "primary_side_pred" s
             else Ok X) ;;
    do X <- (if use_proba p then
               do m <- need (primary_model p) ;; do v <- predict_proba m (values X_primary) ;;
               do q <- make_frame (index X_primary) (proba_columns (n_classes m)) v ;; concat_inner X q
             else Ok X) ;;
    do _ <- raise_if (negb (forallb complete_row (rows X))) ValueError ;;
    Ok X.
  (** `a.intersection(b)`. Simplification: in the order of the first index, without repetitions. *)
  Definition intersection (a b : list Z) : list Z := filter (fun t => existsb (Z.eqb t) b) (nodup Z.eq_dec a).
  (** create_dataset_metalabeling (lines 599-644). *)
  Definition create_dataset_metalabeling (p : pipeline) (X : dict frame) (y : series) : result (frame * series) :=
    do _ <- raise_if (negb (labels_ok y)) AssertionError ;;
    do fs <- features_of p X ;;
    do Xy <- align_X_dict_and_y (fst fs) y true ;;
    do X_meta <- features_for_metalabeling p (fst Xy) fs ;;
    do m <- need (primary_model p) ;;
    do v <- predict m (values (fst Xy)) ;;
    do _ <- raise_if (negb (Nat.eqb (length v) (length (snd Xy)))) ValueError ;;
    let y_meta := map (fun p => (fst (fst p), if eeqb (snd p) (snd (fst p)) then Fin a1 else Fin a0)) (combine (snd Xy) v) in
    let times := intersection (index X_meta) (map fst y_meta) in
    do X1 <- loc_f X_meta times ;; do y1 <- loc y_meta times ;; Ok (X1, y1).

  (** ** Predictions *)

  (** X_primary_aligned (lines 461-466 and 501-511). *)
  Definition primary_features (fs : dict frame * dict frame) : result frame := do X <- concat_outer (map snd (fst fs)) ;; Ok (dropna X).
  (** predict (lines 436-487). *)
  Definition predict_all (p : pipeline) (X : dict frame) : result (series * option series) :=
    do _ <- match metalabeling_model p with Some m => raise_if (negb (fitted m)) NotFittedError | None => Ok tt end ;;
    do lead <- lookup X (align_on p) ;;
    do _ <- mapM (fun kf => match index lead, rev (index (snd kf)) with
                            | t :: _, last :: _ => raise_if (last <? t)%Z ValueError
                            | _, _ => Err IndexError
                            end) X ;;
    do fs <- features_of p X ;;
    do Xp <- primary_features fs ;;
    do m <- need (primary_model p) ;;
    do v <- predict m (values Xp) ;;
    do pred <- make_series (index Xp) v ;;
    match metalabeling_model p with
    | None => Ok (pred, None)
    | Some mm =>
        do Xm <- features_for_metalabeling p Xp fs ;;
        do v <- predict mm (values Xm) ;;
        do s <- make_series (index Xm) v ;;
        Ok (pred, Some s)
    end.
  (** predict_proba (lines 489-547): one row of probabilities per time, one column per class. *)
  Definition make_proba (m : model) (f : frame) : result (list (Z * list cell)) :=
    do v <- predict_proba m (values f) ;;
    if forallb (fun r => Nat.eqb (length r) (length (classes m))) v then make_series (index f) v else Err ValueError.
  Definition predict_proba_all (p : pipeline) (X : dict frame) : result (list (Z * list cell) * option (list (Z * list cell))) :=
    do fs <- features_of p X ;;
    do Xp <- primary_features fs ;;
    do m <- need (primary_model p) ;;
    do prob <- make_proba m Xp ;;
    match metalabeling_model p with
    | None => Ok (prob, None)
    | Some mm =>
        do _ <- raise_if (negb (fitted mm)) NotFittedError ;;
        do Xm <- features_for_metalabeling p Xp fs ;;
        do mprob <- make_proba mm Xm ;;
        Ok (prob, Some mprob)
    end.

  (** `max(axis=1)`, which skips NaN, and the class at `np.argmax`. For a row of at least one probability.
      Simplification: the probabilities are not NaN. *)
  Definition row_max (l : list cell) : cell := match l with x :: r => fold_left py_max r x | [] => NaN end.
  Fixpoint argmax_from (i best : nat) (v : cell) (l : list cell) : nat :=
    match l with [] => best | x :: r => if eltb v x then argmax_from (S i) i x r else argmax_from (S i) best v r end.
  Definition argmax (l : list cell) : result nat := match l with [] => Err ValueError | x :: r => Ok (argmax_from 1 0 x r) end.
  (** `predicted_proba[1.0]`. *)
  Fixpoint class_position (c : cell) (l : list cell) : result nat :=
    match l with [] => Err KeyError | x :: r => if eeqb x c then Ok 0 else do k <- class_position c r ;; Ok (S k) end.
  (** `pd.DataFrame({"side": side, "size": size}).dropna()` (line 597): outer join of the two series.
      Simplification: the union is in increasing order. *)
  Definition join_series (a b : series) : result frame :=
    concat2 {| columns := ["side"%string]; rows := map (fun e => (fst e, [snd e])) a |} {| columns := ["size"%string]; rows := map (fun e => (fst e, [snd e])) b |}.
  (** get_side_and_size (lines 549-597). *)
  Definition get_side_and_size (p : pipeline) (X : dict frame) : result frame :=
    do preds <- predict_all p X ;;
    do probs <- predict_proba_all p X ;;
    do m <- need (primary_model p) ;;
    let '(prob, cls) := match metalabeling_model p, snd probs with Some mm, Some q => (q, classes mm) | _, _ => (fst probs, classes m) end in
    do size <- match bet_sizer p with
               | Some sizer =>
                   do rs <- mapM (fun r => do k <- argmax (snd r) ;; do c <- get cls k ;; Ok (fst r, (row_max (snd r), c))) prob ;;
                   match metalabeling_model p with
                   | Some _ =>
                       do again <- predict_all p X ;;
                       do side <- aligned_values (map fst rs) (fst again) ;;
                       sizer (map (fun q => (fst (fst q), (snd (fst q), Some (snd q)))) (combine rs side))
                   | None => sizer (map (fun r => (fst r, (snd r, None))) rs)
                   end
               | None =>
                   match metalabeling_model p with
                   | Some _ => do k <- class_position (Fin a1) cls ;; mapM (fun r => do x <- get (snd r) k ;; Ok (fst r, x)) prob
                   | None => Ok (map (fun r => (fst r, row_max (snd r))) prob)
                   end
               end ;;
    do df <- join_series (fst preds) size ;;
    Ok (dropna df).

  (** ** determine_positions_to_close (lines 682-691) *)

  (** The attributes of a StrategySignalPipeline: those set in __init__ (132-155), class attributes and methods. *)
  Definition attribute_names : list string :=
    ["primary_model"; "metalabeling_model"; "feature_transformers_primary_model"; "align_on_"; "align_how_"; "feature_transformers_metalabeling_model";
     "metalabeling_use_proba_primary_model"; "metalabeling_use_predictions_primary_model"; "bet_sizer"; "closing_positions_model";
     "_primary_model_features"; "_primary_model_predictions"; "_primary_model_proba"; "_metalabeling_model_features"; "_metalabeling_model_predictions";
     "_metalabeling_model_proba"; "_align_methods"; "set_primary_model"; "set_metalabeling_model"; "_align_on"; "_get_pred_proba_features"; "_check_y_metalabel";
     "_align_X_dict_and_y"; "transform"; "_get_features_for_metalabeling"; "predict"; "predict_proba"; "get_side_and_size"; "create_dataset_metalabeling";
     "create_dataset_primary"; "determine_positions_to_close"]%string.
  Definition hasattr (name : string) : bool := existsb (String.eqb name) attribute_names.
  Definition determine_positions_to_close (p : pipeline) (X : dict frame) : result (option string) :=
    do d <- match closing_positions_model p with
            | Some m => if hasattr "closing_position_model" then m X else Ok None
            | None => Ok None
            end ;;
    match d with
    | None => Ok None
    | Some s => if existsb (String.eqb s) ["all"; "long"; "short"]%string then Ok d else Err ValueError
    end.

  (** * The trader *)

  (** Frames that can be modified in place: a heap, and dictionaries of addresses. *)
  Definition heap := list frame.
  Definition deref (h : heap) (X : dict nat) : result (dict frame) := mapM (fun ka => do f <- get h (snd ka) ;; Ok (fst ka, f)) X.
  Record trader := {
    strategy : pipeline; num_expiration_bars : cell; volatility_adjusted : bool;
    stop_loss_factor : option cell; profit_taking_factor : option cell;
    (* get_daily_vol with the configured window: a series on a part of the index *)
    daily_vol : list Z -> list cell -> result series
  }.
  (** _check_X_dict (lines 734-743). *)
  Definition check_X_dict (X : dict frame) : result unit :=
    do _ <- mapM (fun kf => raise_if (negb (unique_index (index (snd kf)))) ValueError) X ;; Ok tt.
  (** The column of a frame. *)
  Fixpoint column_position (name : string) (l : list string) : result nat :=
    match l with [] => Err KeyError | x :: r => if String.eqb x name then Ok 0 else do k <- column_position name r ;; Ok (S k) end.
  Definition column (f : frame) (name : string) : result series :=
    do k <- column_position name (columns f) ;; mapM (fun r => do x <- get (snd r) k ;; Ok (fst r, x)) (rows f).
  (** _check_signal_has_valid_output (lines 745-765): the new value of strategy_valid. *)
  Definition signal_valid (signal : frame) : result bool :=
    do size <- column signal "size" ;;
    do side <- column signal "side" ;;
    Ok (forallb (fun e => eleb (Fin a0) (snd e) && eleb (snd e) (Fin a1)) size
        && forallb (fun e => eleb (Fin (aopp a1)) (snd e) && eleb (snd e) (Fin a1)) side).
  (** create_signal (lines 767-783): the signal and strategy_valid. *)
  Definition create_signal (tr : trader) (X : dict frame) : result (frame * bool) :=
    do _ <- check_X_dict X ;;
    do signal <- get_side_and_size (strategy tr) X ;;
    do v <- signal_valid signal ;;
    Ok (signal, v).
  (** `df[name] = ...` for a frame with a unique index: overwrite the column or append it. *)
  Definition set_column (f : frame) (name : string) (value : Z -> cell) : frame :=
    match column_position name (columns f) with
    | Ok k => {| columns := columns f; rows := map (fun r => (fst r, firstn k (snd r) ++ value (fst r) :: skipn (S k) (snd r))) (rows f) |}
    | Err _ => {| columns := columns f ++ [name]; rows := map (fun r => (fst r, snd r ++ [value (fst r)])) (rows f) |}
    end.
  (** `df[[names]]`. *)
  Definition select (f : frame) (names : list string) : result frame :=
    do ks <- mapM (fun n => column_position n (columns f)) names ;;
    do rs <- mapM (fun r => do v <- mapM (get (snd r)) ks ;; Ok (fst r, v)) (rows f) ;;
    Ok {| columns := names; rows := rs |}.
  (** create_strategy_bars (lines 785-822). It writes to the frame of the caller.
      Simplification: what has been written before an exception is not kept. *)
  Definition bar_columns : list string := ["stop_loss"; "profit_taking"; "num_expiration_bars"]%string.
  Definition create_strategy_bars (tr : trader) (h : heap) (X : dict nat) : result (heap * frame) :=
    do Xf <- deref h X ;;
    do _ <- check_X_dict Xf ;;
    do a <- lookup X (align_on (strategy tr)) ;;
    do f <- get h a ;;
    do vol <- (if volatility_adjusted tr then
                 do close <- column f "close" ;; do v <- daily_vol tr (map fst close) (map snd close) ;; Ok (series_at v)
               else Ok (fun _ => Fin a1)) ;;
    do sl <- match stop_loss_factor tr with Some x => Ok x | None => Err TypeError end ;;
    let f := set_column f "stop_loss" (fun t => emul (vol t) sl) in
    do pt <- match profit_taking_factor tr with Some x => Ok x | None => Err TypeError end ;;
    let f := set_column f "profit_taking" (fun t => emul (vol t) pt) in
    let f := set_column f "num_expiration_bars" (fun _ => num_expiration_bars tr) in
    do bars <- select f bar_columns ;;
    Ok (firstn a h ++ f :: skipn (S a) h, bars).
  (** check_missing_columns (transformers/utils.py, lines 11-14). *)
  Definition check_missing_columns (f : frame) (wanted : list string) : result unit :=
    raise_if (negb (forallb (fun c => existsb (String.eqb c) (columns f)) wanted)) AssertionError.
  (** create_position (lines 824-852). *)
  Definition create_position (tr : trader) (h : heap) (X : dict nat) : result (heap * frame * bool) :=
    do Xf <- deref h X ;;
    do sv <- create_signal tr Xf ;;
    do hb <- create_strategy_bars tr h X ;;
    do position <- concat2 (fst sv) (snd hb) ;;
    do _ <- check_missing_columns position (bar_columns ++ ["size"%string; "side"%string]) ;;
    do _ <- raise_if (negb (unique_index (index position))) ValueError ;;
    Ok (fst hb, position, snd sv).
End Pipeline.
Arguments frame A : clear implicits.
Arguments model A : clear implicits.
Arguments pipeline A : clear implicits.
Arguments trader A : clear implicits.
