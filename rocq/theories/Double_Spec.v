(** Double precision, without reference to the model. *)
From Coq Require Import Reals ZArith QArith List Permutation.
From Verif Require Import Num.
Import ListNotations.
Local Open Scope R_scope.

(** The doubles: a significand of at most 53 bits times a power of two, no smaller than 2^-1074. *)
Definition is_double (x : R) : Prop :=
  exists m e : Z, x = IZR m * powerRZ 2 e /\ (Z.abs m < 2 ^ 53)%Z /\ (-1074 <= e)%Z.
(** [y] is a double nearest to [x]. *)
Definition nearest (x y : R) : Prop := is_double y /\ forall z, is_double z -> Rabs (y - x) <= Rabs (z - x).

(** Positive doubles, as prices are. *)
Definition positive_double (p : R) : Prop := is_double p /\ 0 < p.

(** A price quoted in ticks of 2^e: the double that holds it and the exact number of ticks; [None] is a missing price. *)
Definition in_double (e : Z) (p : option Z) : ext R :=
  match p with Some z => Fin (IZR z * powerRZ 2 e) | None => NaN end.
Definition in_ticks (p : option Z) : ext Q :=
  match p with Some z => Fin (inject_Z z) | None => NaN end.

(** [s] is a sum of the list in double precision, the terms added in any order and grouping. *)
Inductive added : list R -> R -> Prop :=
| added_one x : added [x] x
| added_two l l1 l2 a b s : Permutation l (l1 ++ l2) -> added l1 a -> added l2 b -> nearest (a + b) s -> added l s.

(** [x] is within the relative error [d] of [y]. *)
Definition within_rel (d x y : R) : Prop := Rabs (x - y) <= d * Rabs y.

(** What a random generator may return: as many numbers from [0, 1) as asked for. *)
Definition uniform_numbers (uniform : nat -> nat -> list R) : Prop :=
  forall i n, length (uniform i n) = n /\ Forall (fun x => 0 <= x < 1) (uniform i n).
(** How np.sum may add: in any order and grouping. *)
Definition some_order (np_sum : list R -> R) : Prop := forall l, l <> [] -> added l (np_sum l).
