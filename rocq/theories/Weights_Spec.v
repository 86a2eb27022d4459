(** Vocabulary for stating the sample-weight properties. *)
From Coq Require Import QArith Reals.
From Verif Require Import QSum Boot_Spec.
Local Open Scope nat_scope.

Definition rsum (l : list R) : R := fold_right Rplus 0%R l.

(** A row: label start, label end (nanoseconds), close price ([None] = missing). *)
Definition price_row := (Z * Z * option R)%type.
Definition start_of (r : price_row) : Z := fst (fst r).
Definition end_of (r : price_row) : Z := snd (fst r).

(** Logarithmic return of bar [k], missing for the first bar or if one of the two prices is missing. *)
Definition log_return (rows : list price_row) (k : nat) : option R :=
  match k with
  | O => None
  | S j => match nth_error rows j, nth_error rows k with
           | Some (_, Some p0), Some (_, Some p1) => Some (ln p1 - ln p0)%R
           | _, _ => None
           end
  end.

(** Number of labels alive at the time of bar [k]. *)
Definition labels_alive (rows : list price_row) (t : Z) : nat := count (alive t) (map fst rows).

(** What bar [k] contributes to a label covering it: its return, shared by the labels alive; nothing if missing. *)
Definition contribution (rows : list price_row) (k : nat) : R :=
  match nth_error rows k, log_return rows k with
  | Some r, Some x => (x / INR (labels_alive rows (start_of r)))%R
  | _, _ => 0%R
  end.

(** Bar [b] lies within label [s, e], at millisecond resolution. *)
Definition within_ms (s e b : Z) : bool :=
  (s / 1000000 <=? b / 1000000)%Z && (b / 1000000 <=? e / 1000000)%Z.

(** Share of the total uniqueness carried by the labels that start at or before [t]. *)
Definition share (us : list (Z * Q)) (t : Z) : Q :=
  (qsum (map snd (filter (fun r => fst r <=? t)%Z us)) / qsum (map snd us))%Q.

(** Decayed weight for a share [x] of cumulative uniqueness: for c >= 0 a line from c (at share 0) to 1 (at share 1);
    for c < 0 a line from 0 at share -c to 1 at share 1, and 0 below. *)
Definition decayed (c x : Q) : Q :=
  if Qle_bool 0 c then (c + (1 - c) * x)%Q
  else if Qle_bool x (- c) then 0%Q else ((x - (- c)) / (1 - (- c)))%Q.
