(** Distance travelled by a price. *)
From Coq Require Import QArith Qabs.
From Verif Require Import Prelude.

(** Sum of the absolute moves from bar 0 to bar [k]. *)
Fixpoint travelled (p : nat -> Q) (k : nat) : Q :=
  match k with
  | O => 0
  | S j => travelled p j + Qabs (p (S j) - p j)
  end.
