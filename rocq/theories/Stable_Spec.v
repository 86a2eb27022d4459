(** Two versions of a column: the numbers differ by at most e, the rows without a number are the same. *)
From Coq Require Import Reals List.
From Verif Require Import Num.

Definition revised (e : R) (c c' : list (ext R)) : Prop :=
  Forall2 (fun x y => match x, y with Fin a, Fin b => (Rabs (a - b) <= e)%R | Fin _, _ | _, Fin _ => False | _, _ => True end) c c'.
