(** Model of mizarlabs/model/bootstrapping.py and mizarlabs/transformers/sampling/average_uniqueness.py. *)
From Verif Require Import QSum.

(** * Sparse 0/1 matrices *)

(** scipy sparse matrix with entries 0/1: [entry m t j] says whether row [t], column [j] is stored.
    Only rows below [nrows] and columns below [ncols] exist. *)
Record mat := { nrows : nat; ncols : nat; entry : nat -> nat -> bool }.

Definition b2q (b : bool) : Q := if b then 1%Q else 0%Q.
Definition all_rows (m : mat) : list nat := seq 0 (nrows m).
Definition all_cols (m : mat) : list nat := seq 0 (ncols m).

(** * get_ind_matrix (bootstrapping.py:7-78) *)

(** `dict(zip(sorted(bar_index), range(...)))` followed by a lookup, lines 57-62. *)
Fixpoint position (x : Z) (l : list Z) : option nat :=
  match l with
  | [] => None
  | y :: r => if Z.eqb x y then Some 0 else option_map S (position x r)
  end.
(** `Index.map(dict)` gives NaN for a missing key, and numpy then fails on the slice with a TypeError. *)
Definition lookup_pos (l : list Z) (x : Z) : result nat :=
  match position x l with Some p => Ok p | None => Err TypeError end.

Definition list_minZ (d : Z) (l : list Z) : Z := fold_left Z.min l d.
Definition list_maxZ (d : Z) (l : list Z) : Z := fold_left Z.max l d.

(** Lines 65-69: a zero matrix, then one slice assignment per sample. *)
Definition fill (T : nat) (tok : list (nat * nat)) : mat :=
  {| nrows := T; ncols := length tok;
     entry := fun t j => match nth_error tok j with
                         | Some (a, b) => Nat.leb a t && Nat.ltb t (b + 1)
                         | None => false
                         end |}.

Definition any_entry (m : mat) (v : bool) : bool :=
  existsb (fun t => existsb (fun j => Bool.eqb (entry m t j) v) (all_cols m)) (all_rows m).

(** Lines 30-78. A sample is (start, end) = (index value, value of the series), [None] for NaT; [bars] are the
    index values of price_bars. Returns the matrix and bar_index.
    Simplifications: the series has the name [event_end_time_column_name] (otherwise KeyError);
    bar times are never NaT. For an empty series numpy raises ValueError (reduction of a zero-size array). *)
Definition get_ind_matrix (samples : list (option Z * option Z)) (bars : list Z) : result (mat * list Z) :=
  if existsb (fun s => match snd s with None => true | Some _ => false end) samples
     || existsb (fun s => match fst s with None => true | Some _ => false end) samples
  then Err ValueError
  else
    let starts := flat_map (fun s => match fst s with Some x => [x] | None => [] end) samples in
    let ends := flat_map (fun s => match snd s with Some x => [x] | None => [] end) samples in
    match starts, ends with
    | s0 :: sr, e0 :: er =>
      let lo := list_minZ s0 sr in
      let hi := list_maxZ e0 er in
      let trimmed := filter (fun b => (lo <=? b) && (b <=? hi))%Z bars in
      let bar_index := np_uniqueZ (starts ++ ends ++ trimmed) in
      do ps <- mapM (lookup_pos bar_index) starts ;;
      do pe <- mapM (lookup_pos bar_index) ends ;;
      let m := fill (length bar_index) (combine ps pe) in
      if negb (any_entry m true) then Err AssertionError else
      if negb (any_entry m false) then Err AssertionError else
      Ok (m, bar_index)
    | _, _ => Err ValueError
    end.

(** * Average uniqueness *)

(** `ind_mat.sum(axis=1)`, line 90: concurrency of a row. *)
Definition concurrency (m : mat) (t : nat) : Q := qsum (map (fun j => b2q (entry m t j)) (all_cols m)).

(** Numpy's [a / b] where [b] is a count: NaN ([None]) for 0/0. *)
Definition mean_or_nan (s : Q) (count : nat) : option Q :=
  if Nat.eqb count 0 then None else Some (s / Qn count)%Q.

(** calc_average_uniqueness, lines 81-95. The product with 1/concurrency is only formed for stored entries. *)
Definition calc_average_uniqueness (m : mat) : list (option Q) :=
  map (fun j =>
    let stored := filter (fun t => entry m t j) (all_rows m) in
    let sums := qsum (map (fun t => 1 / concurrency m t)%Q stored) in
    let counts := length stored in
    mean_or_nan sums counts) (all_cols m).

(** _calc_update_avg_unique, lines 98-136. Simplification: exact rationals instead of float32. *)
Definition partial_conc (m : mat) (boot : list nat) (t : nat) : Q :=
  qsum (map (fun s => b2q (entry m t s)) boot).
Definition conc_per_sample (m : mat) (boot : list nat) (t j : nat) : Q :=
  let p := partial_conc m boot t in
  if Qeq_bool p 0 then b2q (entry m t j)                (* rows outside non_zero_partial_conc_events_idx *)
  else (1 / (b2q (entry m t j) + p))%Q.
Definition calc_update_avg_unique (m : mat) (samples boot : list nat) : list (option Q) :=
  map (fun j =>
    let stored := filter (fun t => entry m t j) (all_rows m) in
    let sums := qsum (map (fun t => b2q (entry m t j) * conc_per_sample m boot t j)%Q stored) in
    mean_or_nan sums (length stored)) samples.

(** * seq_bootstrap, lines 139-195 *)

(** `avg_unique[samples_to_update] = values`. *)
Definition set_at {A} (l : list A) (j : nat) (v : A) : list A :=
  firstn j l ++ match skipn j l with [] => [] | _ :: r => v :: r end.
Definition assign_at {A} (l : list A) (idx : list nat) (vals : list A) : list A :=
  fold_left (fun l jv => set_at l (fst jv) (snd jv)) (combine idx vals) l.

(** `avg_unique / np.sum(avg_unique)`, line 182, over possibly missing numbers: [None] if any is NaN. *)
Definition all_some (l : list (option Q)) : option (list Q) :=
  fold_right (fun x acc => match x, acc with Some q, Some r => Some (q :: r) | _, _ => None end) (Some []) l.
Definition normalise (l : list (option Q)) : option (list Q) :=
  option_map (fun qs => map (fun q => q / qsum qs)%Q qs) (all_some l).

(** `random_state.choice(sample_indices, p=prob, size=size)`, lines 185-189: ValueError when there is nothing to
    choose from, when a probability is NaN or negative or when they do not sum to one; otherwise the outcome is
    decided by the generator [rng], a function of the number of the draw, the probabilities and the size.
    Simplification: numpy accepts a small deviation of the sum from one. *)
Definition np_choice (rng : nat -> list Q -> nat -> list nat) (i : nat) (prob : option (list Q)) (size : nat)
  : result (list Q * list nat) :=
  match prob with
  | None => Err ValueError
  | Some p =>
    if Nat.eqb (length p) 0 then Err ValueError else
    if existsb (fun x => negb (Qle_bool 0 x)) p then Err ValueError else
    if negb (Qeq_bool (qsum p) 1) then Err ValueError else
    Ok (p, rng i p size)
  end.

(** One round of the loop, lines 172-193. The log records what is passed to and returned by the generator. *)
Record state := {
  boot : list nat;            (* bootstrapped_samples *)
  avg : list (option Q);      (* avg_unique *)
  prob : option (list Q);
  impacted : list nat;        (* rows_impacted *)
  log : list (list Q * list nat)
}.

Definition rows_of_samples (m : mat) (choices : list nat) : list nat :=
  flat_map (fun t => flat_map (fun s => if entry m t s then [t] else []) choices) (all_rows m).
Definition samples_on_rows (m : mat) (rows : list nat) : list nat :=
  flat_map (fun t => filter (fun j => entry m t j) (all_cols m)) rows.

Definition round (m : mat) (rng : nat -> list Q -> nat -> list nat) (len u : Z) (i : nat) (st : state)
  : result state :=
  let '(avg1, prob1) :=
    if Nat.ltb 0 (length (impacted st)) then
      let rows := np_unique (impacted st) in
      let to_update := np_unique (samples_on_rows m rows) in
      let a := assign_at (avg st) to_update (calc_update_avg_unique m to_update (boot st)) in
      (a, normalise a)
    else (avg st, prob st) in
  do pc <- np_choice rng i prob1 (Z.to_nat (Z.min (len - Z.of_nat i * u) u)) ;;
  Ok {| boot := boot st ++ snd pc;
        avg := avg1;
        prob := prob1;
        (* rows_impacted is empty at this point: it was either reset (183) or had no elements *)
        impacted := rows_of_samples m (snd pc);
        log := log st ++ [pc] |}.

(** `np.ceil(sample_length / update_probs_every)`, line 172. Simplification: exact instead of through a double, which is the same
    for lengths below 2^53 (C18_rounds_through_a_double). *)
Definition ceil_div (a b : Z) : Z := (- ((- a) / b))%Z.

Definition initial (m : mat) : state :=
  let ones := repeat (Some 1%Q) (ncols m) in
  {| boot := []; avg := ones; prob := normalise ones; impacted := []; log := [] |}.

(** Lines 158-195; returns bootstrapped_samples and the log. [sample_length] = None is Python's None. *)
Definition seq_bootstrap (m : mat) (rng : nat -> list Q -> nat -> list nat) (sample_length : option Z) (u : Z)
  : result (list nat * list (list Q * list nat)) :=
  let len := match sample_length with Some l => l | None => Z.of_nat (ncols m) end in
  if (u =? 0)%Z then Err ZeroDivisionError else
  do st <- foldM (fun st i => round m rng len u i st) (initial m) (seq 0 (Z.to_nat (ceil_div len u))) ;;
  Ok (boot st, log st).

(** * AverageUniqueness.transform (average_uniqueness.py:18-38) *)

Fixpoint has_dup (l : list Z) : bool :=
  match l with [] => false | x :: r => memZ x r || has_dup r end.
(** Rows of X: (index value, event end time). Simplification: the column exists. The numpy warning-free
    arithmetic gives NaN ([None]) for a sample without rows. *)
Definition average_uniqueness_transform (X : list (Z * option Z)) : result (list (Z * option Q)) :=
  if existsb (fun r => match snd r with None => true | Some _ => false end) X then Err AssertionError else
  if has_dup (map fst X) then Err AssertionError else
  do mi <- get_ind_matrix (map (fun r => (Some (fst r), snd r)) X) (map fst X) ;;
  Ok (combine (map fst X) (calc_average_uniqueness (fst mi))).
