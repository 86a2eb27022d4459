(** Vocabulary: prices that move in one direction. *)
From Coq Require Import Reals QArith.
From Verif Require Import Series OLS_Spec Trend_Spec.
Local Open Scope nat_scope.

(** The [n] values from bar [k] on never fall (never rise). *)
Definition never_falls (p : nat -> R) (n : nat) : Prop := forall i j, i <= j < n -> (p i <= p j)%R.
Definition never_rises (p : nat -> R) (n : nat) : Prop := forall i j, i <= j < n -> (p j <= p i)%R.
(** Every value is above the one before. *)
Definition always_rises (p : nat -> R) (n : nat) : Prop := forall i j, i < j < n -> (p i < p j)%R.
Definition always_falls (p : nat -> R) (n : nat) : Prop := forall i j, i < j < n -> (p j < p i)%R.

(** No price from bar [i] on is below (above) that of bar [i]; prices are positive numbers. *)
Definition stays_above (close : list (ext R)) (i : nat) (c0 : R) : Prop :=
  forall k x, i <= k -> nth_error close k = Some x -> exists c, x = Fin c /\ (c0 <= c)%R.
Definition stays_below (close : list (ext R)) (i : nat) (c0 : R) : Prop :=
  forall k x, i <= k -> nth_error close k = Some x -> exists c, x = Fin c /\ (0 < c <= c0)%R.

(** A price that stays at one level and then at another. *)
Definition one_step (a b : Q) (before after : list Z) : list (Z * ext Q) :=
  map (fun t => (t, Fin a)) before ++ map (fun t => (t, Fin b)) after.
