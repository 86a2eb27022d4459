(** Model of the thin classes of mizarlabs/model/pipeline.py (MizarFeatureUnion, MizarPipeline, the two helpers of
    StrategySignalPipeline for training a metalabeling model) and of IdentityTransformer (mizarlabs/transformers/utils.py),
    with the parts of scikit-learn's Pipeline and FeatureUnion (0.24) that they rest on. *)
From Coq Require Import String Ascii QArith DecimalString.
From Verif Require Import Prelude Num Series Pipe_Model.
Local Open Scope nat_scope.

(** * Keyword arguments *)

(** `d[k] = v`: overwrites in place, or appends. *)
Fixpoint set_key {V} (d : dict V) (k : string) (v : V) : dict V :=
  match d with
  | [] => [(k, v)]
  | (k', v') :: r => if String.eqb k' k then (k, v) :: r else (k', v') :: set_key r k v
  end.

(** `s.split("__", 1)`: the part before the first double underscore and, if there is one, the part after it. *)
Fixpoint split_dunder (s : string) : string * option string :=
  match s with
  | EmptyString => (EmptyString, None)
  | String c r =>
      match r with
      | EmptyString => (s, None)
      | String c' r' =>
          if (Ascii.eqb c "_" && Ascii.eqb c' "_")%bool then (EmptyString, Some r')
          else let (a, b) := split_dunder r in (String c a, b)
      end
  end.

(** * MizarPipeline (pipeline.py:40-48) *)
Section MizarPipeline.
  (* the data, the labels, the values of keyword arguments *)
  Context {D Y V : Type}.

  (** An estimator: `fit_transform(X, y, **kwargs)` of a transformer, `fit(X, y, **kwargs)` of a final estimator. *)
  Record estimator := { fit_transform : D -> Y -> dict V -> result D; fit : D -> Y -> dict V -> result unit }.
  (** A named step; [None] is "passthrough". Simplification: the deprecated None is not modelled, nor is the cache. *)
  Definition step := (string * option estimator)%type.

  (** A call that the pipeline makes to one of its steps. *)
  Record call := { to_step : string; with_data : D; with_labels : Y; with_arguments : dict V }.

  (** Pipeline._check_fit_params: sorts the keyword arguments by step. *)
  Definition sort_argument (d : dict (dict V)) (kv : string * V) : result (dict (dict V)) :=
    match split_dunder (fst kv) with
    | (_, None) => Err ValueError
    | (name, Some parameter) => do own <- lookup d name ;; Ok (set_key d name (set_key own parameter (snd kv)))
    end.
  Definition sort_arguments (steps : list step) (arguments : dict V) : result (dict (dict V)) :=
    foldM sort_argument (map (fun s => (fst s, [])) steps) arguments.

  (** _BaseComposition._validate_names: distinct, none is a constructor argument, none contains a double underscore. *)
  Definition distinct (l : list string) : bool := Nat.eqb (List.length (nodup string_dec l)) (List.length l).
  Definition valid_names (names : list string) : bool :=
    (distinct names && negb (existsb (fun n => existsb (String.eqb n) ["steps"; "memory"; "verbose"]%string) names)
      && forallb (fun n => match snd (split_dunder n) with None => true | Some _ => false end) names)%bool.

  (** Pipeline._fit and the end of Pipeline.fit: the calls in order, and how it ends. *)
  Fixpoint run_steps (steps : list step) (arguments : dict (dict V)) (X : D) (y : Y) : list call * result unit :=
    match steps with
    | [] => ([], Ok tt)
    | [(name, None)] => ([], Ok tt)
    | [(name, Some e)] =>
        match lookup arguments name with
        | Err ex => ([], Err ex)
        | Ok a => ([{| to_step := name; with_data := X; with_labels := y; with_arguments := a |}], fit e X y a)
        end
    | (name, None) :: rest => run_steps rest arguments X y
    | (name, Some e) :: rest =>
        match lookup arguments name with
        | Err ex => ([], Err ex)
        | Ok a =>
            let c := {| to_step := name; with_data := X; with_labels := y; with_arguments := a |} in
            match fit_transform e X y a with
            | Err ex => ([c], Err ex)
            | Ok X' => let (cs, r) := run_steps rest arguments X' y in (c :: cs, r)
            end
        end
    end.
  (** sklearn.pipeline.Pipeline.fit. *)
  Definition pipeline_fit (steps : list step) (X : D) (y : Y) (arguments : dict V) : list call * result unit :=
    match sort_arguments steps arguments with
    | Err ex => ([], Err ex)
    | Ok d => if valid_names (map fst steps) then run_steps steps d X y else ([], Err ValueError)
    end.
  (** MizarPipeline.fit (lines 45-48). *)
  Definition mizar_fit (steps : list step) (X : D) (y : Y) (sample_weight : option V) (arguments : dict V) : list call * result unit :=
    match sample_weight with
    | None => pipeline_fit steps X y arguments
    | Some w =>
        match rev steps with
        | [] => ([], Err IndexError)
        | last :: _ => pipeline_fit steps X y (set_key arguments (fst last ++ "__sample_weight") w)
        end
    end.
End MizarPipeline.
Arguments estimator : clear implicits.
Arguments step : clear implicits.
Arguments call : clear implicits.

(** * MizarFeatureUnion (pipeline.py:28-37) *)
Section MizarFeatureUnion.
  Context {A : Type} {HA : Arith A}.
  Notation cell := (ext A).
  (* frames, with their index, and labels *)
  Context {F Y : Type} (times : F -> list Z).

  (** What a transformer returns, as numpy sees it: one dimension (a Series or a flat array), or two (a DataFrame or a
      matrix) with a number of columns. *)
  Inductive array := Flat (values : list cell) | Table (width : nat) (table : list (list cell)).

  (** A transformer: fitting it gives a function from frames to arrays. Simplification: `fit_transform` is `fit` and then
      `transform` (TransformerMixin), and takes no further keyword arguments. *)
  Definition transformer := F -> option Y -> result (F -> result array).
  (** A named transformer ([None] is "drop"). *)
  Definition part := (string * option transformer)%type.

  (** `np.concatenate` of rows. *)
  Definition glue_rows (a b : list (list cell)) : list (list cell) := map (fun p => fst p ++ snd p) (combine a b).
  Definition glue (x y : array) : result array :=
    match x, y with
    | Flat u, Flat v => Ok (Flat (u ++ v))
    | Table n a, Table m b => if Nat.eqb (List.length a) (List.length b) then Ok (Table (n + m) (glue_rows a b)) else Err ValueError
    | _, _ => Err ValueError
    end.
  (** FeatureUnion._hstack (no sparse matrices); without parts, `np.zeros((X.shape[0], 0))`. *)
  Definition hstack (rows : nat) (l : list array) : result array :=
    match l with [] => Ok (Table 0 (repeat [] rows)) | x :: r => foldM glue x r end.
  (** `pd.DataFrame(Xs, index=index)`; the columns are numbered. *)
  Definition make_frame (index : list Z) (x : array) : result (list (Z * list cell)) :=
    match x with
    | Flat v => make_series index (map (fun c => [c]) v)
    | Table _ t => make_series index t
    end.

  (** _transform_one: the result times the weight of the transformer, if it has one. *)
  Definition weighted (w : option cell) (x : array) : array :=
    match w with
    | None => x
    | Some w => match x with Flat v => Flat (map (fun c => emul c w) v) | Table n t => Table n (map (map (fun c => emul c w)) t) end
    end.
  Definition weight_of (weights : dict cell) (name : string) : option cell := match lookup weights name with Ok w => Some w | Err _ => None end.

  (** The parts that are not dropped (_iter). *)
  Definition active {T} (l : list (string * option T)) : list (string * T) :=
    flat_map (fun p => match snd p with Some t => [(fst p, t)] | None => [] end) l.
  (** FeatureUnion.fit (inherited). *)
  Definition union_fit (parts : list part) (X : F) (y : option Y) : result (list (string * (F -> result array))) :=
    mapM (fun p => do f <- snd p X y ;; Ok (fst p, f)) (active parts).
  (** FeatureUnion.transform, on the fitted parts. *)
  Definition plain_transform (weights : dict cell) (fitted : list (string * (F -> result array))) (X : F) : result array :=
    do outs <- mapM (fun p => do x <- snd p X ;; Ok (weighted (weight_of weights (fst p)) x)) fitted ;;
    hstack (List.length (times X)) outs.
  (** MizarFeatureUnion.transform (lines 34-37). *)
  Definition union_transform (weights : dict cell) (fitted : list (string * (F -> result array))) (X : F) : result (list (Z * list cell)) :=
    do x <- plain_transform weights fitted X ;; make_frame (times X) x.
  (** FeatureUnion.fit_transform: fits and transforms part by part, then stacks. *)
  Definition plain_fit_transform (weights : dict cell) (parts : list part) (X : F) (y : option Y) :
    result (list (string * (F -> result array)) * array) :=
    do both <- mapM (fun p => do f <- snd p X y ;; do x <- f X ;; Ok ((fst p, f), weighted (weight_of weights (fst p)) x)) (active parts) ;;
    do x <- hstack (List.length (times X)) (map snd both) ;; Ok (map fst both, x).
  (** MizarFeatureUnion.fit_transform (lines 29-32): the labels are not passed on. *)
  Definition union_fit_transform (weights : dict cell) (parts : list part) (X : F) (y : option Y) :
    result (list (string * (F -> result array)) * list (Z * list cell)) :=
    do r <- plain_fit_transform weights parts X None ;;
    do f <- make_frame (times X) (snd r) ;; Ok (fst r, f).
End MizarFeatureUnion.
Arguments array : clear implicits.
Arguments transformer : clear implicits.
Arguments part : clear implicits.

(** * Helpers for the metalabeling model (pipeline.py:247-315) *)
Section Meta.
  Context {A : Type} {HA : Arith A}.
  Notation cell := (ext A).
  Notation frame := (frame A).

  (** The position of a name in a list. *)
  Fixpoint position (l : list string) (k : string) : option nat :=
    match l with [] => None | x :: r => if String.eqb x k then Some 0 else option_map S (position r k) end.
  (** `df.loc[labels, names] = values`: a label without a row raises KeyError, a wrong shape ValueError.
      Simplification: the labels are distinct, and the names are all columns (as they are in line 292). *)
  Definition write_row (cols names : list string) (values row : list cell) : list cell :=
    map (fun p => match position names (fst p) with Some j => nth j values NaN | None => snd p end) (combine cols row).
  Definition write_rows (f : frame) (labels : list Z) (names : list string) (values : list (list cell)) : result frame :=
    do _ <- raise_if (negb (forallb (fun t => existsb (Z.eqb t) (index f)) labels)) KeyError ;;
    do s <- make_series labels values ;;
    Ok {| columns := columns f;
          rows := map (fun r => match filter (fun e => Z.eqb (fst e) (fst r)) s with
                                | [] => r
                                | e :: _ => (fst r, write_row (columns f) names (snd e) (snd r)) end) (rows f) |}.
  (** _get_pred_proba_features (lines 247-294). The model is given by its `predict_proba`, if it has one, which returns a
      matrix of a number of columns and its rows. The frame is changed in place by the second branch, and returned. *)
  Definition get_pred_proba_features (predict_proba : option (list (list cell) -> result (nat * list (list cell))))
      (X_pred_features X_val : frame) (y_val : list (Z * cell)) : result frame :=
    match predict_proba with
    | None => Err AttributeError
    | Some p =>
        do pr <- p (map snd (rows X_val)) ;;
        let names := proba_columns (fst pr) in
        if forallb (fun n => existsb (String.eqb n) (columns X_pred_features)) names
        then write_rows X_pred_features (map fst y_val) names (snd pr)
        else
          do r <- make_series (map fst y_val) (snd pr) ;;
          concat2 X_pred_features {| columns := names; rows := r |}
    end.

  (** _check_y_metalabel (lines 297-315): the message of the ValueError, by its one variable word, if it raises.
      Simplification: no missing metalabels. *)
  Definition check_y_metalabel (y : list Q) : option string :=
    match sort_unique Qcompare y with
    | [v] => Some (if Qeq_bool v 0 then "incorrect" else "correct")%string
    | _ => None
    end.

  (** IdentityTransformer (transformers/utils.py:31-38): `fit` returns self, `transform` its argument. *)
  Definition identity_transform (X : frame) : frame := X.
  (** The same as a part of a feature union: numpy sees the cells of the frame. *)
  Definition identity_part {Y} : transformer A frame Y := fun _ _ => Ok (fun X => Ok (Table (List.length (columns X)) (map snd (rows X)))).
End Meta.
