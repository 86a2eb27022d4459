(** Vocabulary for the feature properties. *)
From Coq Require Import Reals String.
From Verif Require Import Series Feat_Model.
Local Open Scope nat_scope.

(** All columns as long as the index. *)
Definition well_formed (X : frame) : Prop := forall c, In c (f_cols X) -> List.length (snd c) = List.length (f_index X).
(** The first n rows; the frame without its first m rows. *)
Definition head (n : nat) (X : frame) : frame :=
  {| f_index := firstn n (f_index X); f_cols := map (fun c => (fst c, firstn n (snd c))) (f_cols X) |}.
Definition drop (m : nat) (X : frame) : frame :=
  {| f_index := skipn m (f_index X); f_cols := map (fun c => (fst c, skipn m (snd c))) (f_cols X) |}.

(** The feature of the first n rows is the first n values of the feature of all rows (or the same exception). *)
Definition no_look_ahead {B} (T : frame -> result (list B)) : Prop :=
  forall X n, well_formed X -> T (head n X) = match T X with Ok out => Ok (firstn n out) | Err e => Err e end.
Definition no_look_ahead_series (F : list (ext R) -> list (ext R)) : Prop := forall l n, F (firstn n l) = firstn n (F l).

(** One value for each row. *)
Definition one_per_row {B} (T : frame -> result (list B)) : Prop :=
  forall X out, well_formed X -> T X = Ok out -> List.length out = List.length (f_index X).

(** Rows more than k rows after the start do not depend on older rows: if the first m rows are dropped, the values agree
    except for the first k that remain. *)
Definition forgets {B} (k : nat) (T : frame -> result (list B)) : Prop :=
  forall X m, well_formed X ->
  match T X, T (drop m X) with
  | Ok out, Ok out' => skipn k out' = skipn (m + k) out
  | Err e, Err e' => e = e'
  | _, _ => False
  end.

(** The numbers of a list without missing or infinite values. *)
Fixpoint all_numbers (l : list (ext R)) : option (list R) :=
  match l with
  | [] => Some []
  | Fin x :: r => option_map (cons x) (all_numbers r)
  | _ => None
  end.
(** The last w values up to row i, if there are w and all are numbers. *)
Definition last_values (w : nat) (l : list (ext R)) (i : nat) : option (list R) :=
  if Nat.ltb (i + 1) w then None else all_numbers (map (fun j => nth (i + 1 - w + j) l NaN) (seq 0 w)).
Definition rsum (l : list R) : R := fold_right Rplus 0%R l.
Definition average (v : list R) : R := (rsum v / INR (List.length v))%R.
(** Moving average at row i. *)
Definition moving_average (w : nat) (l : list (ext R)) (i : nat) : option R := option_map average (last_values w l i).

(** The fast average moves from at or below the slow one to above it, or from at or above to below. *)
Definition up_crossing (fast slow : nat) (l : list (ext R)) (i : nat) : Prop :=
  exists j f0 s0 f1 s1, i = S j /\ moving_average fast l j = Some f0 /\ moving_average slow l j = Some s0 /\
    moving_average fast l i = Some f1 /\ moving_average slow l i = Some s1 /\ (f0 <= s0)%R /\ (s1 < f1)%R.
Definition down_crossing (fast slow : nat) (l : list (ext R)) (i : nat) : Prop :=
  exists j f0 s0 f1 s1, i = S j /\ moving_average fast l j = Some f0 /\ moving_average slow l j = Some s0 /\
    moving_average fast l i = Some f1 /\ moving_average slow l i = Some s1 /\ (s0 <= f0)%R /\ (f1 < s1)%R.
(** Direction of the crossing at row i, and of the most recent crossing up to row i; 0 if there is none. *)
Definition direction (fast slow : nat) (l : list (ext R)) (i : nat) (d : R) : Prop :=
  up_crossing fast slow l i /\ d = 1%R \/ down_crossing fast slow l i /\ d = (-1)%R \/
  ~ up_crossing fast slow l i /\ ~ down_crossing fast slow l i /\ d = 0%R.
Definition most_recent_direction (fast slow : nat) (l : list (ext R)) (i : nat) (d : R) : Prop :=
  (exists j, j <= i /\ (d = 1%R \/ d = (-1)%R) /\ direction fast slow l j d /\ forall k, j < k <= i -> direction fast slow l k 0) \/
  (d = 0%R /\ forall k, k <= i -> direction fast slow l k 0).

(** Sample standard deviation; z-score of the last value of a window. *)
Definition deviation_sum (v : list R) : R := rsum (map (fun x => (x - average v) * (x - average v))%R v).
Definition sample_sd (v : list R) : R := sqrt (deviation_sum v / (INR (List.length v) - 1)).
Definition constant (v : list R) : Prop := exists x, forall y, In y v -> y = x.
(** Replace every number x by a x + b. *)
Definition affine (a b : R) (l : list (ext R)) : list (ext R) := map (fun x => match x with Fin v => Fin (a * v + b)%R | _ => x end) l.

(** Column [name] of [X] holds the numbers [c]. *)
Definition has_column (X : frame) (name : string) (c : list R) : Prop := lookup name X = Some (map Fin c).
(** A column without values in its first k rows and with value [g i] in row i >= k. *)
Definition values_from (k n : nat) (g : nat -> R) (out : list (ext R)) : Prop :=
  List.length out = n /\ forall i, i < n -> nth_error out i = Some (if Nat.ltb i k then NaN else Fin (g i)).
(** Row i of a column of numbers; the rows i-w+1, ..., i. *)
Definition row (c : list R) (i : nat) : R := nth i c 0%R.
Definition rows_up_to (w i : nat) : list nat := map (fun j => i + 1 - w + j) (seq 0 w).
Definition trailing (w : nat) (g : nat -> R) (i : nat) : list R := map g (rows_up_to w i).
(** Sample covariance. *)
Definition covariance (x y : list R) : R :=
  (rsum (map (fun p => (fst p - average x) * (snd p - average y))%R (combine x y)) / (INR (List.length x) - 1))%R.

Definition change (c : list R) (i : nat) : R := (row c i - row c (i - 1))%R.
Definition log_change (c : list R) (i : nat) : R := (ln (row c i) - ln (row c (i - 1)))%R.
(** Squared log range of one bar, and of two adjacent bars together. *)
Definition range2 (h l : list R) (i : nat) : R := (ln (row h i / row l i) * ln (row h i / row l i))%R.
Definition gamma_two (h l : list R) (i : nat) : R :=
  let r := ln (Rmax (row h (i - 1)) (row h i) / Rmin (row l (i - 1)) (row l i)) in (r * r)%R.
Definition beta_two (w : nat) (h l : list R) (i : nat) : R :=
  average (trailing w (fun j => range2 h l (j - 1) + range2 h l j)%R i).
Definition cs_alpha (w : nat) (h l : list R) (i : nat) : R :=
  Rmax 0 ((sqrt 2 - 1) * sqrt (beta_two w h l i) / (3 - 2 * sqrt 2) - sqrt (gamma_two h l i / (3 - 2 * sqrt 2)))%R.
Definition cs_spread (w : nat) (h l : list R) (i : nat) : R :=
  (2 * (exp (cs_alpha w h l i) - 1) / (1 + exp (cs_alpha w h l i)))%R.
Definition bp_sigma (w : nat) (h l : list R) (i : nat) : R :=
  Rmax 0 ((1 / sqrt 2 - 1) * sqrt (beta_two w h l i) / (sqrt (8 / PI) * (3 - 2 * sqrt 2)) +
          sqrt (gamma_two h l i / (8 / PI * (3 - 2 * sqrt 2))))%R.

(** Missing or at least 0. *)
Definition not_negative (x : ext R) : Prop := x = NaN \/ x = PInf \/ exists v, x = Fin v /\ (0 <= v)%R.
Definition volumes_not_negative (X : frame) (name : string) : Prop := forall c, lookup name X = Some c -> Forall not_negative c.

(** Probabilities 1 for the class of the prediction and 0 for the others. *)
Definition certain (classes : list R) (prediction : ext R) (probabilities : list R) : Prop :=
  exists k c, nth_error classes k = Some c /\ prediction = Fin c /\ List.length probabilities = List.length classes /\
    forall j, j < List.length classes -> nth_error probabilities j = Some (if Nat.eqb j k then 1%R else 0%R).
(** Same exception, or certainty in every row. *)
Definition certain_rows (classes : list R) (predict : frame -> result (list (ext R))) (proba : frame -> result (list (list R))) : Prop :=
  forall X, match predict X, proba X with
  | Ok p, Ok q => Forall2 (certain classes) p q
  | Err e, Err e' => e = e'
  | _, _ => False
  end.

(** A value below / above a number. *)
Definition below (x : ext R) (b : R) : Prop := x = NInf \/ exists v, x = Fin v /\ (v < b)%R.
Definition above (x : ext R) (b : R) : Prop := x = PInf \/ exists v, x = Fin v /\ (b < v)%R.
(** A signal that is 1 in the rows that satisfy P and 0 in the others. *)
Definition signals (n : nat) (P : nat -> Prop) (out : list (ext R)) : Prop :=
  List.length out = n /\ forall i, i < n -> (P i /\ nth_error out i = Some (Fin 1%R)) \/ (~ P i /\ nth_error out i = Some (Fin 0%R)).
(** Mean time between bars over the last k arrivals before row i. *)
Definition mean_arrival (idx : list Z) (k i : nat) : R := ((IZR (nth i idx 0%Z) - IZR (nth (i - k) idx 0%Z)) / INR k)%R.
(** Half the change of sign. *)
Definition sign_of (x : R) (s : R) : Prop := (x < 0 /\ s = -1)%R \/ (x = 0 /\ s = 0)%R \/ (0 < x /\ s = 1)%R.

(** The greatest of some numbers. *)
Definition greatest (v : list R) (m : R) : Prop := In m v /\ forall x, In x v -> (x <= m)%R.
(** Exponentially weighted average up to row i: weights 1, d, d^2, ... back in time, with d = 1 - 2/(span + 1). *)
Definition decay (span : R) : R := (1 - 2 / (span + 1))%R.
Definition ewma (span : R) (c : list R) (i : nat) : R :=
  (rsum (map (fun j => decay span ^ j * row c (i - j)) (seq 0 (i + 1))) / rsum (map (fun j => decay span ^ j) (seq 0 (i + 1))))%R.
(** Rolling z-scores of a series: how many sample standard deviations the last value of the window is above the window's average. *)
Definition z_scores (w : nat) (l out : list (ext R)) : Prop :=
  List.length out = List.length l /\ forall i z, nth_error out i = Some z ->
  match last_values w l i with
  | None => z = NaN
  | Some v => constant v /\ z = NaN \/ ~ constant v /\ z = Fin ((last v 0 - average v) / sample_sd v)%R
  end.
