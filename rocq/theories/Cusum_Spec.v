(** Vocabulary for stating the CUSUM properties. *)
From Coq Require Import QArith.
From Verif Require Import Prelude.
Local Open Scope nat_scope.

(** [U] is the set of positions at which the prices [p] have risen by more than [h] from some level seen since the
    previous such position (or since the start). *)
Definition rises (h : Q) (p : nat -> Q) (n : nat) (U : nat -> Prop) : Prop :=
  forall k, k < n ->
    (U k <-> exists i, i < k /\ (forall u, U u -> u < k -> u <= i) /\ (h < p k - p i)%Q).

(** Same for falls. *)
Definition falls (h : Q) (p : nat -> Q) (n : nat) (D : nat -> Prop) : Prop :=
  forall k, k < n ->
    (D k <-> exists i, i < k /\ (forall u, D u -> u < k -> u <= i) /\ (h < p i - p k)%Q).

(** A subsequence. *)
Inductive subseq {A} : list A -> list A -> Prop :=
| sub_nil l : subseq [] l
| sub_skip x s l : subseq s l -> subseq s (x :: l)
| sub_take x s l : subseq s l -> subseq (x :: s) (x :: l).
