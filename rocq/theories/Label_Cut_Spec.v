(** Leaving out the first rows of a frame. *)
From Coq Require Import List.
From Verif Require Import Num Series Label_Model.

(** [y'] is [y] without its first [m] rows. *)
Definition without_first {A} (m : nat) (y y' : frame A) : Prop :=
  f_index y' = skipn m (f_index y) /\ forall name, column y' name = option_map (skipn m) (column y name).
