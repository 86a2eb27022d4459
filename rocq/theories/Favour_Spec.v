(** Vocabulary for C102, and for the number of rounds of the sequential bootstrap. *)
From Verif Require Import QSum.

(** [d] is a double nearest to [x], for 0 <= x < 2^53: doubles have 53 significant bits, so around a positive [x] they are the
    multiples of the 1/2^k for which 2^52 <= x * 2^k < 2^53. Ties may go either way. *)
Definition double_near (x d : Q) : Prop :=
  ((x == 0) /\ (d == 0))%Q \/
  exists (k : nat) (m : Z), let K := inject_Z (2 ^ Z.of_nat k) in
    (inject_Z (2 ^ 52) <= x * K /\ x * K < inject_Z (2 ^ 53) /\ d == inject_Z m / K /\ Qabs (d - x) <= / (2 * K))%Q.

(** The smallest integer that is not below a number. *)
Definition is_ceiling (x : Q) (c : Z) : Prop := (x <= inject_Z c /\ inject_Z c < x + 1)%Q.
