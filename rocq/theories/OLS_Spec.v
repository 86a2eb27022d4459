(** Vocabulary for least squares. *)
From Coq Require Import Reals.
From Verif Require Import Series OLS_Model.
Local Open Scope nat_scope.

Definition delta (i j : nat) : R := if Nat.eqb i j then 1%R else 0%R.

(** [N] is the two-sided inverse of the square matrix [M]. *)
Definition inverse_of (M N : mat) : Prop :=
  nc M = nr M /\ nr N = nr M /\ nc N = nr M /\
  (forall i j, i < nr M -> j < nr M -> rsumn (nr M) (fun k => (at_ M i k * at_ N k j)%R) = delta i j) /\
  (forall i j, i < nr M -> j < nr M -> rsumn (nr M) (fun k => (at_ N i k * at_ M k j)%R) = delta i j).

(** What is assumed of a numerical inverse: what it returns is the inverse; it succeeds on invertible matrices of size [n]. *)
Definition inv_sound (inv : mat -> result mat) : Prop := forall M N, inv M = Ok N -> inverse_of M N.
Definition inv_complete (n : nat) (inv : mat -> result mat) : Prop :=
  forall M N, nr M = n -> inverse_of M N -> exists N', inv M = Ok N'.

(** Residual of row [i] and sum of squared residuals for the coefficients [c]. *)
Definition resid (X y : mat) (c : nat -> R) (i : nat) : R := (at_ y i 0 - rsumn (nc X) (fun l => at_ X i l * c l))%R.
Definition sse (X y : mat) (c : nat -> R) : R := rsumn (nr X) (fun i => (resid X y c i * resid X y c i)%R).

(** The Gram matrix. *)
Definition gram (X : mat) : mat :=
  {| nr := nc X; nc := nc X; at_ := fun i j => rsumn (nr X) (fun k => (at_ X k i * at_ X k j)%R) |}.

(** Simple regression of y_0..y_{n-1} on 0..n-1. *)
Definition mean (n : nat) (f : nat -> R) : R := (rsumn n f / INR n)%R.
Definition sxx (n : nat) : R := rsumn n (fun i => (INR i - mean n INR) * (INR i - mean n INR))%R.
Definition slope (n : nat) (y : nat -> R) : R := (rsumn n (fun i => (INR i - mean n INR) * (y i - mean n y)) / sxx n)%R.
Definition rss (n : nat) (y : nat -> R) : R :=
  rsumn n (fun i => let e := (y i - mean n y - slope n y * (INR i - mean n INR)) in e * e)%R.
(** t-value of the slope: the slope over its standard error. *)
Definition trend_t (n : nat) (y : nat -> R) : R := (slope n y / sqrt (rss n y / (INR n - 2) / sxx n))%R.
