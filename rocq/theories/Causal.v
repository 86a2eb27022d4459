(** Causality: the first n outputs of a series operation are those obtained from the first n inputs alone. *)
From Verif Require Import Prelude.

Definition causal {A B} (F : list A -> list B) : Prop := forall xs ys, firstn (length xs) (F (xs ++ ys)) = F xs.
Definition length_preserving {A B} (F : list A -> list B) : Prop := forall xs, length (F xs) = length xs.
