(** What the exponentially weighted deviation of a series is. *)
From Coq Require Import Reals.
From Verif Require Import Series.
Local Open Scope nat_scope.

(** The observations of a series with their ages: the number of later places, with or without an observation. *)
Fixpoint aged (l : list (ext R)) : list (nat * R) :=
  match l with
  | [] => []
  | Fin x :: r => (length r, x) :: aged r
  | _ :: r => aged r
  end.

(** All pairs of two elements at different places. *)
Fixpoint pairs {V} (l : list V) : list (V * V) :=
  match l with [] => [] | x :: r => map (fun y => (x, y)) r ++ pairs r end.

(** The weight of an observation: for a span s, each place of age makes it smaller by the factor (s - 1) / (s + 1). *)
Definition decay (span : R) (age : nat) : R := (((span - 1) / (span + 1)) ^ age)%R.

Definition total (l : list R) : R := fold_right Rplus 0%R l.
(** The weight of a pair, and half the squared difference in it. *)
Definition pair_weight (span : R) (p : (nat * R) * (nat * R)) : R := (decay span (fst (fst p)) * decay span (fst (snd p)))%R.
Definition half_square (p : (nat * R) * (nat * R)) : R := ((snd (fst p) - snd (snd p)) ^ 2 / 2)%R.

(** s is the root of the weighted mean, over all pairs of observations, of half their squared difference. With equal
    weights this is the sample standard deviation. *)
Definition weighted_deviation (span : R) (obs : list (nat * R)) (s : R) : Prop :=
  (0 <= s)%R /\
  (s ^ 2 * total (map (pair_weight span) (pairs obs)) = total (map (fun p => pair_weight span p * half_square p) (pairs obs)))%R.
