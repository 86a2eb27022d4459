(** Model of mizarlabs/transformers/sample_weights/__init__.py and transformers/utils.py:17-28. *)
From Coq Require Import QArith Reals.
From Verif Require Import Series QSum Boot_Model.
Local Open Scope nat_scope.

(** convert_to_timestamp (transformers/utils.py:17-28): nanoseconds to milliseconds, floor division. *)
Definition to_ms (t : Z) : Z := (t / 1000000)%Z.

(** * SampleWeightsByReturns (sample_weights/__init__.py:13-97) *)

(** Row sum of the indicator matrix, lines 47-48. *)
Definition row_sum (m : mat) (t : nat) : ext R :=
  esum (map (fun j => if entry m t j then Fin 1%R else Fin 0%R) (all_cols m)).

(** `pd.Series(row sums, index=ind_mat_indices).loc[X.index]`, lines 47-49; ind_mat_indices has no repetitions. *)
Definition concurrent_at (m : mat) (idx : list Z) (t : Z) : result (ext R) :=
  match position t idx with Some p => Ok (row_sum m p) | None => Err KeyError end.

(** _calculate_weights, lines 64-97. *)
Definition calculate_weights (bars ends : list Z) (conc returns : list (ext R)) : list (ext R) :=
  map (fun se =>
    let mask := map (fun b => (fst se <=? b) && (b <=? snd se))%Z bars in
    let r := mask_sel returns mask in
    let c := mask_sel conc mask in
    eabs (nansum (zipw ediv r c)))
  (combine bars ends).

(** A row of X: index value, event end time ([None] = NaT), close price. *)
Record wrow := { w_start : Z; w_end : option Z; w_close : ext R }.

(** transform, lines 35-62. Simplification: both columns exist. *)
Definition returns_transform (X : list wrow) : result (list (Z * ext R)) :=
  do mi <- get_ind_matrix (map (fun r => (Some (w_start r), w_end r)) X) (map w_start X) ;;
  do conc <- mapM (concurrent_at (fst mi) (snd mi)) (map w_start X) ;;
  let returns := diff (map (fun r => elog (w_close r)) X) in
  (* get_ind_matrix has rejected missing end times *)
  let ends := flat_map (fun r => match w_end r with Some e => [e] | None => [] end) X in
  Ok (combine (map w_start X)
        (calculate_weights (map to_ms (map w_start X)) (map to_ms ends) conc returns)).

(** * SampleWeightsByTimeDecay (sample_weights/__init__.py:100-140) *)

(** `sort_index()`, line 131; the index has no repetitions at this point. *)
Fixpoint insert_row {V} (r : Z * V) (l : list (Z * V)) : list (Z * V) :=
  match l with
  | [] => [r]
  | x :: l' => if (fst r <=? fst x)%Z then r :: l else x :: insert_row r l'
  end.
Definition sort_index {V} (l : list (Z * V)) : list (Z * V) := fold_right insert_row [] l.

Definition of_opt {A} (x : option A) : ext A := match x with Some a => Fin a | None => NaN end.

(** Lines 131-138 on the sorted average uniqueness; [iloc[-1]] of an empty series raises IndexError.
    Simplification: numpy's 1/0 is +inf, also for a negative zero. The arithmetic is a parameter: exact rationals below, doubles in
    Double_Weights_Model.v. *)
Definition decay_weights {A} {HA : Arith A} (c : A) (uniq : list (ext A)) : result (list (ext A)) :=
  let cum := cumsum uniq in
  match rev cum with
  | [] => Err IndexError
  | total :: _ =>
    let slope := if altb c a0 then ediv (Fin a1) (emul (Fin (aadd c a1)) total)
                 else ediv (Fin (aadd a1 (aopp c))) total in
    let const := esub (Fin a1) (emul slope total) in
    let w := map (fun x => eadd const (emul slope x)) cum in
    Ok (map (fun x => if eltb x (Fin a0) then Fin a0 else x) w)
  end.

(** transform, lines 127-140. Simplification: the column exists. *)
Definition decay_transform (c : Q) (X : list (Z * option Z)) : result (list (Z * ext Q)) :=
  if negb (Qle_bool c 1) then Err AssertionError else
  do av <- average_uniqueness_transform X ;;
  let s := sort_index av in
  do w <- decay_weights c (map (fun r => of_opt (snd r)) s) ;;
  Ok (combine (map fst s) w).
