(** Series of doubles of bounded size, and rows that agree up to a distance. *)
From Coq Require Import Reals ZArith List.
From Verif Require Import Num Double_Model Double_Spec.

(** Every number of the series is a double of absolute value at most M. *)
Definition held_below (M : R) (l : list (ext R)) : Prop := forall v, In (Fin v) l -> is_double v /\ (Rabs v <= M)%R.
(** Both missing, or both numbers at most d apart. *)
Definition close_to (d : R) (x y : ext R) : Prop :=
  match x, y with Fin a, Fin b => (Rabs (a - b) <= d)%R | NaN, NaN => True | _, _ => False end.

(** A price of a whole number of ticks, and the double nearest to it; None is a missing price. *)
Definition decimal (tick : R) (p : option Z) : ext R := match p with Some z => Fin (IZR z * tick)%R | None => NaN end.
Definition stored (tick : R) (p : option Z) : ext R := match p with Some z => Fin (to_double (IZR z * tick)) | None => NaN end.

(** A bar with its volume, the volume bought and the volume sold. *)
Definition bar_volume (t : R * R * R) : R := fst (fst t).
Definition bar_bought (t : R * R * R) : R := snd (fst t).
Definition bar_sold (t : R * R * R) : R := snd t.
Definition bar_imbalance (t : R * R * R) : R := Rabs (bar_bought t - bar_sold t).
(** The sum of f over the last w bars up to row i. *)
Definition last_total (w : nat) (bars : list (R * R * R)) (f : R * R * R -> R) (i : nat) : R :=
  fold_right Rplus 0%R (map f (firstn w (skipn (S i - w) bars))).
