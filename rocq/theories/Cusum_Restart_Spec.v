(** CUSUM events without directions. *)
From Coq Require Import QArith Qabs.
From Verif Require Import Prelude.
Local Open Scope nat_scope.

(** [E] is the set of positions at which the price differs by more than [h] from some price seen since the previous such position (or since the start). *)
Definition moves (h : Q) (p : nat -> Q) (n : nat) (E : nat -> Prop) : Prop :=
  forall k, k < n -> (E k <-> exists i, i < k /\ (forall u, E u -> u < k -> u <= i) /\ (h < Qabs (p k - p i))%Q).
