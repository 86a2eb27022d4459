(** Model of mizarlabs/model/sequentially_bootstrapped_bagging_classifier.py. *)
From Verif Require Import QSum Num Boot_Model.
From Verif Require Export Rounding_Model.

(** * Arrays that can be modified in place *)

(** A heap of float arrays; an array is referred to by its address. *)
Definition heap := list (list Q).
Definition alloc (h : heap) (a : list Q) : heap * nat := (h ++ [a], length h).
Definition read (h : heap) (a : nat) : result (list Q) := get h a.
(** `array.copy()`. *)
Definition copy (h : heap) (a : nat) : result (heap * nat) := do v <- read h a ;; Ok (alloc h v).
(** `array *= other`: the lengths must agree. *)
Definition imul (h : heap) (a : nat) (other : list Q) : result heap :=
  do v <- read h a ;;
  if Nat.eqb (length v) (length other) then Ok (set_at h a (map (fun p => fst p * snd p)%Q (combine v other))) else Err ValueError.

(** * Libraries, as parameters *)
Section Bagging.
  (** [num]: feature values; [gen]: states of a numpy RandomState; [est0]: unfitted, [model]: fitted base estimators. *)
  Variables num gen est0 model : Type.

  (** numpy's RandomState. Simplification: `randint(MAX_INT, size=k)` is k successive draws [next_int]; `choice` is described
      by the function [choices] from the number of the call, the probabilities and the size (see Boot_Model.v). *)
  Record numpy := {
    new_state : Z -> gen;                                   (* RandomState(seed) *)
    next_int : gen -> Z * gen;
    randint_below : gen -> nat -> nat -> list nat * gen;    (* randint(0, n_population, n_samples) *)
    sample_without_replacement : gen -> nat -> nat -> list nat * gen;
    choices : gen -> nat -> list Q -> nat -> list nat
  }.
  (** The base estimator. [make] is `_make_estimator(append=False, random_state=...)` (clone and seed).
      Labels are class codes. [predict_proba] is None if the estimator has no such method. *)
  Record estimator := {
    make : gen -> est0 * gen;
    support_sample_weight : bool;                           (* has_fit_parameter(..., "sample_weight") *)
    fit_weighted : est0 -> list (list num) -> list nat -> list Q -> result model;
    fit_plain : est0 -> list (list num) -> list nat -> result model;
    predict_proba : option (model -> list (list num) -> result (list (list Q)));
    predict : model -> list (list num) -> result (list nat)
  }.
  Variables (np : numpy) (est : estimator).

  (** * Drawing *)

  (** _generate_random_features (lines 36-64). *)
  Definition generate_random_features (g : gen) (bootstrap : bool) (n_population n_samples : nat) : list nat * gen :=
    if bootstrap then randint_below np g n_population n_samples else sample_without_replacement np g n_population n_samples.
  (** _generate_bagging_indices (lines 67-110). *)
  Definition generate_bagging_indices (g : gen) (bootstrap_features : bool) (n_features max_features max_samples : nat) (ind_mat : mat)
    (update_probs_every : Z) : result (list nat * list nat) :=
    let '(feature_indices, g) := generate_random_features g bootstrap_features n_features max_features in
    do s <- seq_bootstrap ind_mat (choices np g) (Some (Z.of_nat max_samples)) update_probs_every ;;
    Ok (feature_indices, fst s).

  (** `np.bincount(indices, minlength=n)`. *)
  Definition bincount (indices : list nat) (n : nat) : list Q :=
    map (fun i => Qn (count_occ Nat.eq_dec indices i)) (seq 0 (Nat.max n (fold_right Nat.max 0 (map S indices)))).
  (** `X[:, features]` and `X[indices]`. *)
  Definition take_columns (X : list (list num)) (features : list nat) : result (list (list num)) := mapM (fun row => mapM (get row) features) X.
  Definition take_rows {A} (X : list A) (indices : list nat) : result (list A) := mapM (get X) indices.

  (** The settings of a run of _parallel_build_estimators (lines 152-157). *)
  Record job := {
    j_X : list (list num); j_y : list nat; j_n_features : nat;
    j_ind_mat : mat; j_weight : option nat;                 (* address of sample_weight *)
    j_max_features : nat; j_max_samples : nat; j_bootstrap_features : bool; j_every : Z
  }.
  (** An estimator with its features and its samples. *)
  Record trained := { t_model : model; t_features : list nat; t_samples : list nat }.

  (** One round of the loop (lines 174-205). *)
  Definition build_one (j : job) (h : heap) (seed : Z) : result (heap * trained) :=
    let g := new_state np seed in
    let '(e, g) := make est g in
    do fi <- generate_bagging_indices g (j_bootstrap_features j) (j_n_features j) (j_max_features j) (j_max_samples j) (j_ind_mat j) (j_every j) ;;
    let '(features, indices) := fi in
    if support_sample_weight est then
      do ha <- match j_weight j with
               | None => Ok (alloc h (repeat 1%Q (length (j_X j))))
               | Some w => copy h w
               end ;;
      let '(h, a) := ha in
      do h <- imul h a (bincount indices (length (j_X j))) ;;
      do Xf <- take_columns (j_X j) features ;;
      do w <- read h a ;;
      do m <- fit_weighted est e Xf (j_y j) w ;;
      Ok (h, {| t_model := m; t_features := features; t_samples := indices |})
    else
      do Xi <- take_rows (j_X j) indices ;;
      do Xf <- take_columns Xi features ;;
      do yi <- take_rows (j_y j) indices ;;
      do m <- fit_plain est e Xf yi ;;
      Ok (h, {| t_model := m; t_features := features; t_samples := indices |}).

  (** * The workers (lines 416-455) *)

  (** A worker runs _parallel_build_estimators on its seeds; an exception ends it. *)
  Record worker := { todo : list Z; built : list trained; failed : option exn }.
  (** Lines 159-160 are executed when the worker starts. *)
  Definition start_worker (j : job) (seeds : list Z) : worker :=
    {| todo := seeds; built := [];
       failed := match j_weight j with Some _ => if support_sample_weight est then None else Some ValueError | None => None end |}.
  (** One round of the loop of one worker; all workers share the heap. *)
  Definition advance (j : job) (h : heap) (w : worker) : heap * worker :=
    match failed w, todo w with
    | None, seed :: rest =>
        match build_one j h seed with
        | Ok (h', t) => (h', {| todo := rest; built := built w ++ [t]; failed := None |})
        | Err e => (h, {| todo := rest; built := built w; failed := Some e |})
        end
    | _, _ => (h, w)
    end.
  (** The worker with the given number makes one round. *)
  Fixpoint step (j : job) (h : heap) (ws : list worker) (i : nat) : heap * list worker :=
    match ws, i with
    | [], _ => (h, [])
    | w :: r, 0 => let '(h', w') := advance j h w in (h', w' :: r)
    | w :: r, S i' => let '(h', r') := step j h r i' in (h', w :: r')
    end.
  Definition run (j : job) (h : heap) (ws : list worker) (schedule : list nat) : heap * list worker :=
    fold_left (fun s i => step j (fst s) (snd s) i) schedule (h, ws).
  (** `Parallel` returns when all workers are done (if several fail, the model reports the failure that comes first in the order of
      the jobs; joblib may report another of them): rounds left over when the schedule ends are made one worker after the other. *)
  Definition remaining (ws : list worker) : list nat :=
    flat_map (fun iw => repeat (fst iw) (length (todo (snd iw)))) (combine (seq 0 (length ws)) ws).
  Definition finish (j : job) (h : heap) (ws : list worker) (schedule : list nat) : heap * list worker :=
    let '(h, ws) := run j h ws schedule in run j h ws (remaining ws).
  Definition outcome (w : worker) : result (list trained) := match failed w with None => Ok (built w) | Some e => Err e end.

  (** sklearn's _partition_estimators, for n_jobs = effective_n_jobs(...) > 0 workers: the number of estimators of each job. *)
  Definition partition_estimators (n_estimators n_jobs : nat) : list nat :=
    let n_jobs := Nat.min n_jobs n_estimators in
    map (fun i => n_estimators / n_jobs + if Nat.ltb i (n_estimators mod n_jobs) then 1 else 0) (seq 0 n_jobs).
  (** `seeds[starts[i]:starts[i+1]]` for all jobs, with `starts` the cumulative sums. *)
  Fixpoint batches (seeds : list Z) (sizes : list nat) : list (list Z) :=
    match sizes with [] => [] | k :: r => firstn k seeds :: batches (skipn k seeds) r end.

  (** `random_state.randint(MAX_INT, size=k)`. *)
  Fixpoint draw_seeds (g : gen) (k : nat) : list Z * gen :=
    match k with 0 => ([], g) | S k' => let '(s, g) := next_int np g in let '(l, g) := draw_seeds g k' in (s :: l, g) end.

  (** * Parameters and attributes *)
  (** Simplification: random_state is a seed (an integer), not None or a RandomState shared with other code. *)
  Inductive size_arg := SInt (k : Z) | SFloat (x : ext Q) | SOther.
  Record params := {
    samples_info_sets : list (option Z * option Z); price_bars : list Z;
    n_estimators : Z; max_samples : size_arg; max_features : size_arg;
    bootstrap_features : bool; oob_score : bool; warm_start : bool; random_state : Z; update_probs_every : Z
  }.
  (** estimators_, estimators_features_, sequentially_bootstrapped_samples_ (one list of [trained]: line 447-455 extend all three
      in step), oob_decision_function_ and oob_score_. [None]: no attribute estimators_ yet. *)
  Record attributes := { ensemble : option (list trained); n_classes : nat; oob : option (list (list (ext Q)) * ext Q) }.

  (** `int(x)` of a float. *)
  Definition int_of (x : ext Q) : result Z :=
    match x with
    | Fin q => Ok (Z.quot (Qnum q) (Zpos (Qden q)))
    | NaN => Err ValueError
    | _ => Err OverflowError
    end.
  (** `x * n` of a float and an integer: the product is rounded to a double. *)
  Definition times_n (x : ext Q) (n : nat) : ext Q := match emul x (Fin (Qn n)) with Fin q => Fin (rounded q) | y => y end.
  (** Lines 365-373. Simplification: a max_samples that is neither an integer nor a float raises TypeError (a string would be
      repeated and then fail to convert: ValueError). *)
  Definition check_max_samples (p : size_arg) (n : nat) : result nat :=
    do k <- match p with SInt k => Ok k | SFloat x => int_of (times_n x n) | SOther => Err TypeError end ;;
    if (0 <? k)%Z && (k <=? Z.of_nat n)%Z then Ok (Z.to_nat k) else Err ValueError.
  (** Lines 375-389. *)
  Definition check_max_features (p : size_arg) (n : nat) : result nat :=
    do x <- match p with SInt k => Ok (Fin (inject_Z k)) | SFloat x => Ok (times_n x n) | SOther => Err ValueError end ;;
    if eltb (Fin 0%Q) x && eleb x (Fin (Qn n)) then do k <- int_of x ;; Ok (Nat.max 1 (Z.to_nat k)) else Err ValueError.

  (** timestamp_int_index_mapping (lines 254-256) and `ind_mat[:, mapping.loc[X.index]]` (lines 345-347). *)
  Definition index_mapping (samples : list (option Z * option Z)) (n_columns : nat) : list (option Z * nat) := combine (map fst samples) (seq 0 n_columns).
  Definition locate (mapping : list (option Z * nat)) (times : list Z) : list nat :=
    flat_map (fun t => flat_map (fun e => match fst e with Some s => if Z.eqb s t then [snd e] else [] | None => [] end) mapping) times.
  Definition select_columns (m : mat) (cols : list nat) : mat :=
    {| nrows := nrows m; ncols := length cols; entry := fun t j => match nth_error cols j with Some c => entry m t c | None => false end |}.

  (** BaggingClassifier._validate_y: `np.unique(y, return_inverse=True)`. *)
  Definition code (classes : list Z) (label : Z) : nat := match position label classes with Some p => p | None => 0 end.
  Definition validate_y (y : list Z) : list Z * list nat := let classes := np_uniqueZ y in (classes, map (code classes) y).

  (** * Out-of-bag score (lines 582-629) *)

  (** `~indices_to_mask(samples, n_samples)`. *)
  Definition oob_mask (samples : list nat) (n : nat) : list bool := map (fun i => negb (Prelude.mem i samples)) (seq 0 n).
  (** `row += addend`: equal widths, or a single value added to every entry. *)
  Definition add_row (row addend : list Q) : result (list Q) :=
    if Nat.eqb (length addend) (length row) then Ok (map (fun p => fst p + snd p)%Q (combine row addend))
    else match addend with [x] => Ok (map (fun r => r + x)%Q row) | _ => Err ValueError end.
  (** `predictions[mask, :] += values`: one row of values for each true entry of the mask. *)
  Fixpoint add_masked (predictions : list (list Q)) (mask : list bool) (values : list (list Q)) : result (list (list Q)) :=
    match predictions, mask with
    | [], [] => match values with [] => Ok [] | _ => Err ValueError end
    | row :: rows, false :: mask' => do r <- add_masked rows mask' values ;; Ok (row :: r)
    | row :: rows, true :: mask' =>
        match values with
        | v :: vs => do row' <- add_row row v ;; do r <- add_masked rows mask' vs ;; Ok (row' :: r)
        | [] => Err ValueError
        end
    | _, _ => Err IndexError
    end.
  (** `predictions[i, p] += 1`. *)
  Definition vote (n_classes : nat) (p : nat) : list Q := map (fun c => if Nat.eqb c p then 1%Q else 0%Q) (seq 0 n_classes).
  (** Lines 596-616: one round. The loop over the mask (lines 613-616) adds one vote per masked row; a class code that is too
      large raises IndexError. *)
  Definition oob_round (X : list (list num)) (n_classes : nat) (predictions : list (list Q)) (t : trained) : result (list (list Q)) :=
    let mask := oob_mask (t_samples t) (length X) in
    do rows <- mask_select X mask ;;
    do Xf <- take_columns rows (t_features t) ;;
    match predict_proba est with
    | Some proba => do values <- proba (t_model t) Xf ;; add_masked predictions mask values
    | None =>
        do p <- predict est (t_model t) Xf ;;
        do _ <- raise_if (existsb (fun c => Nat.leb n_classes c) p) IndexError ;;
        add_masked predictions mask (map (vote n_classes) p)
    end.
  (** `np.argmax`: the first position of the maximum. *)
  Fixpoint argmax_from (i best : nat) (v : Q) (l : list Q) : nat :=
    match l with [] => best | x :: r => if Qle_bool x v then argmax_from (S i) best v r else argmax_from (S i) i x r end.
  Definition argmax (l : list Q) : nat := match l with [] => 0 | x :: r => argmax_from 1 0 x r end.
  Definition set_oob_score (X : list (list num)) (y : list nat) (n_classes : nat) (ts : list trained) : result (list (list (ext Q)) * ext Q) :=
    let zeros := repeat (repeat 0%Q n_classes) (length y) in
    do predictions <- foldM (oob_round X n_classes) zeros ts ;;
    let decision := map (fun row => map (fun x => ediv (Fin x) (Fin (qsum row))) row) predictions in
    let hits := length (filter (fun py => Nat.eqb (argmax (fst py)) (snd py)) (combine predictions y)) in
    Ok (decision, ediv (Fin (Qn hits)) (Fin (Qn (length y)))).

  (** * fit (lines 268-462) *)

  (** The data: the index of X, its rows, its number of columns, the labels, the address of sample_weight.
      Simplification: the type assertions (326-333) hold and check_X_y passes the values on unchanged. *)
  Record data := { d_index : list Z; d_rows : list (list num); d_width : nat; d_labels : list Z; d_weight : option nat }.

  (** [mapping] is timestamp_int_index_mapping, [matrix] what the property ind_mat (lines 260-266) returns. *)
  Definition fit_with (mapping : list (option Z * nat)) (matrix : result mat) (p : params) (n_jobs : nat) (schedule : list nat) (d : data)
      (self : attributes) (h : heap) : result (heap * attributes) :=
    let n := length (d_rows d) in
    let g := new_state np (random_state p) in
    (* 335-347 *)
    do _ <- raise_if (negb (forallb (fun t => existsb (fun e => match fst e with Some s => Z.eqb s t | None => false end) mapping) (d_index d))) AssertionError ;;
    do m <- matrix ;;
    do _ <- raise_if (negb (forallb (fun c => c <? ncols m) (locate mapping (d_index d)))) IndexError ;;
    let ind_mat := select_columns m (locate mapping (d_index d)) in
    (* 350-355 *)
    do _ <- raise_if (Nat.eqb n 0 || Nat.eqb (d_width d) 0 || negb (Nat.eqb n (length (d_labels d)))) ValueError ;;
    do _ <- match d_weight d with
            | Some a => do w <- read h a ;; raise_if (negb (Nat.eqb (length w) n)) ValueError
            | None => Ok tt
            end ;;
    (* 358-363 *)
    let '(classes, y) := validate_y (d_labels d) in
    do _ <- raise_if (n_estimators p <=? 0)%Z ValueError ;;
    (* 365-392 *)
    do ms <- check_max_samples (max_samples p) n ;;
    do mf <- check_max_features (max_features p) (d_width d) ;;
    do _ <- raise_if (warm_start p && oob_score p) ValueError ;;
    (* 394-414 *)
    let old := if warm_start p then match ensemble self with Some ts => ts | None => [] end else [] in
    let n_more := (n_estimators p - Z.of_nat (length old))%Z in
    do _ <- raise_if (n_more <? 0)%Z ValueError ;;
    if (n_more =? 0)%Z then Ok (h, {| ensemble := Some old; n_classes := length classes; oob := oob self |})
    else
      let n_more := Z.to_nat n_more in
      (* 417-444 *)
      let sizes := partition_estimators n_more n_jobs in
      let g := if warm_start p then snd (draw_seeds g (length old)) else g in
      let seeds := fst (draw_seeds g n_more) in
      let j := {| j_X := d_rows d; j_y := y; j_n_features := d_width d; j_ind_mat := ind_mat; j_weight := d_weight d;
                  j_max_features := mf; j_max_samples := ms; j_bootstrap_features := bootstrap_features p; j_every := update_probs_every p |} in
      let '(h, ws) := finish j h (map (start_worker j) (batches seeds sizes)) schedule in
      do all_results <- mapM outcome ws ;;
      (* 447-462 *)
      let ts := old ++ concat all_results in
      do o <- (if oob_score p then do s <- set_oob_score (d_rows d) y (length classes) ts ;; Ok (Some s) else Ok (oob self)) ;;
      Ok (h, {| ensemble := Some ts; n_classes := length classes; oob := o |}).
  (** Constructor (lines 216-258) and fit: mapping and matrix are those of the constructor. *)
  Definition fit (p : params) (n_jobs : nat) (schedule : list nat) (d : data) (self : attributes) (h : heap) : result (heap * attributes) :=
    do mi <- get_ind_matrix (samples_info_sets p) (price_bars p) ;;
    fit_with (index_mapping (samples_info_sets p) (ncols (fst mi))) (Ok (fst mi)) p n_jobs schedule d self h.
End Bagging.
