(** A series of [n] rows, missing in the first [k] and equal to [p] in the others. *)
From Coq Require Import Reals List.
From Verif Require Import Num.

Definition level (p : R) (k n : nat) : list (ext R) := map (fun i => if Nat.ltb i k then NaN else Fin p) (seq 0 n).
