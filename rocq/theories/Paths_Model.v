(** Model of combinatorial_cross_validation_paths (mizarlabs/model/model_selection.py:372-451) with the data frames that it
    returns; CV_Model.v has the same function without them. *)
From Coq Require Import String.
From Verif Require Import Prelude Num Series Pipe_Model CV_Model.
Local Open Scope nat_scope.

Section Paths.
  Context {A : Type} {HA : Arith A}.
  Notation cell := (ext A).
  (* the state of the signal pipeline *)
  Context {S : Type}.

  (** The signal pipeline, an object that `fit` changes. The fit parameters (line 408) are part of [sp_fit]. *)
  Record signal_pipeline := {
    sp_fit : S -> list (list cell) -> list cell -> result S;
    sp_predict : S -> list (list cell) -> result (list cell);
    sp_proba : S -> list (list cell) -> result (list (list cell))
  }.

  (** A row of a path: the time, the prediction, the largest probability and the row of y. *)
  Definition path_row := (Z * (cell * cell * list cell))%type.

  (** `y[label_column_name]` (line 396). Simplification: no two columns of y have that name. *)
  Fixpoint column_position (cols : list string) (name : string) : result nat :=
    match cols with [] => Err KeyError | c :: r => if String.eqb c name then Ok 0 else do j <- column_position r name ;; Ok (Datatypes.S j) end.
  (** `df.iloc[positions].values`. *)
  Definition iloc (f : frame A) (positions : list nat) : result (list (list cell)) := mapM (fun i => do r <- get (rows f) i ;; Ok (snd r)) positions.
  (** `np.max(proba, axis=1)` (line 425). *)
  Definition row_max (row : list cell) : result cell := match row with [] => Err ValueError | x :: r => Ok (fold_left nan_max r x) end.
  (** `pd.merge(tmp_df, y, left_index=True, right_index=True, how="left")` (line 428): each row with every row of y of that
      time, or with missing values if there is none. Simplification: y has no column called predictions or max_proba. *)
  Definition merge_left (l : list (Z * (cell * cell))) (y : frame A) : list path_row :=
    flat_map (fun r => match filter (fun e => Z.eqb (fst e) (fst r)) (rows y) with
                       | [] => [(fst r, (snd r, repeat NaN (List.length (columns y))))]
                       | found => map (fun e => (fst r, (snd r, snd e))) found end) l.
  (** Lines 413-428: the frame of one sub test set. *)
  Definition sub_frame (p : signal_pipeline) (st : S) (X y : frame A) (part : list nat) : result (list path_row) :=
    do times <- mapM (get (index X)) part ;;
    do values <- iloc X part ;;
    do predictions <- sp_predict p st values ;;
    do column <- make_series times predictions ;;
    do proba <- sp_proba p st values ;;
    do largest <- mapM row_max proba ;;
    do _ <- raise_if (negb (Nat.eqb (List.length largest) (List.length times))) ValueError ;;
    Ok (merge_left (map (fun r => (fst (fst r), (snd (fst r), snd r))) (combine column largest)) y).

  (** bound_pred_dict (398, 432-435). *)
  Fixpoint append_to {T} (d : list (nat * list T)) (k : nat) (x : T) : list (nat * list T) :=
    match d with
    | [] => [(k, [x])]
    | (k', l) :: r => if Nat.eqb k k' then (k', l ++ [x]) :: r else (k', l) :: append_to r k x
    end.
  (** The body of the loop over the splits (lines 400-435). *)
  Definition one_split (p : signal_pipeline) (X y : frame A) (label : nat) (d : S * list (nat * list (list path_row)))
      (s : list (nat * nat) * (list nat * list nat)) : result (S * list (nat * list (list path_row))) :=
    let '(bounds, (train, test)) := s in
    do values <- iloc X train ;;
    do labels <- iloc y train ;;
    do st <- sp_fit p (fst d) values (map (fun r => nth label r NaN) labels) ;;
    do d' <- foldM (fun d b =>
      do f <- sub_frame p st X y (filter (fun i => Nat.leb (fst b) i && Nat.ltb i (snd b)) test) ;;
      Ok (append_to d (fst b) f)) (snd d) bounds ;;
    Ok (st, d').

  (** random.shuffle (line 445): reorders by positions. [order p k n] is the order that it puts a list of n elements in,
      for path p and key k. *)
  Definition permute {T} (order : list nat) (l : list T) : list T :=
    flat_map (fun i => match nth_error l i with Some x => [x] | None => [] end) order.
  (** Lines 443-447: one path. *)
  Fixpoint take_path (order : nat -> nat -> list nat) (d : list (nat * list (list path_row))) : result (list path_row * list (nat * list (list path_row))) :=
    match d with
    | [] => Ok ([], [])
    | (k, l) :: r =>
      do xl <- pop (permute (order k (List.length l)) l) ;;
      do rr <- take_path order r ;;
      Ok (fst xl ++ fst rr, (k, snd xl) :: snd rr)
    end.
  (** Lines 442-449. *)
  Fixpoint take_paths (order : nat -> nat -> nat -> list nat) (i todo : nat) (d : list (nat * list (list path_row))) : result (list (list path_row)) :=
    match todo with
    | O => Ok []
    | Datatypes.S t =>
      do pd <- take_path (order i) d ;;
      do rest <- take_paths order (Datatypes.S i) t (snd pd) ;;
      Ok (fst pd :: rest)
    end.

  (** combinatorial_cross_validation_paths (372-451). Simplification: all splits are computed before the first fit, whereas
      the code computes each split right before its fit; this matters only for which of two errors is raised first. *)
  Definition path_frames (c : cv) (p : signal_pipeline) (st : S) (X y : frame A) (label_column : string) (order : nat -> nat -> nat -> list nat)
    : result (list (list path_row)) :=
    do label <- column_position (columns y) label_column ;;
    do bounds <- test_fold_bounds c (List.length (rows X)) ;;
    do splits <- split c (List.length (rows X)) ;;
    do d <- foldM (one_split p X y label) (st, []) (combine bounds splits) ;;
    do np <- compute_back_test_paths (n_splits c) (n_test_splits c) ;;
    take_paths order 0 (Z.to_nat np) (snd d).
End Paths.
Arguments signal_pipeline : clear implicits.
Arguments path_row : clear implicits.
