(** Model of the least-squares estimate (mizarlabs/structural_breaks/sdfc.py:41-60). *)
From Coq Require Import Reals.
From Verif Require Import Series.
Local Open Scope nat_scope.

(** A two-dimensional array: its shape and its entries. Simplification: finite exact entries. *)
Record mat := { nr : nat; nc : nat; at_ : nat -> nat -> R }.

(** f 0 + ... + f (n-1) *)
Fixpoint rsumn (n : nat) (f : nat -> R) : R := match n with O => 0%R | S m => (rsumn m f + f m)%R end.

(** `X.T` and `np.dot` of two-dimensional arrays; ValueError when the shapes do not match. *)
Definition tr (X : mat) : mat := {| nr := nc X; nc := nr X; at_ := fun i j => at_ X j i |}.
Definition mdot (X Y : mat) : result mat :=
  if Nat.eqb (nc X) (nr Y)
  then Ok {| nr := nr X; nc := nc Y; at_ := fun i j => rsumn (nc X) (fun k => (at_ X i k * at_ Y k j)%R) |}
  else Err ValueError.

(** get_beta_and_beta_var, lines 54-60. [inv] is np.linalg.inv (it raises on singular input). [y] has one column.
    Simplification: the shapes of `y` and `X @ beta_hat` on line 58 agree (both have the rows of [X] and one column). *)
Definition get_beta_and_beta_var (inv : mat -> result mat) (X y : mat) : result (mat * (nat -> nat -> ext R)) :=
  do Xy <- mdot (tr X) y ;;
  do XX <- mdot (tr X) X ;;
  do XX_inv <- inv XX ;;
  do beta_hat <- mdot XX_inv Xy ;;
  do fitted <- mdot X beta_hat ;;
  let err := {| nr := nr y; nc := nc y; at_ := fun i j => (at_ y i j - at_ fitted i j)%R |} in
  do ee <- mdot (tr err) err ;;
  Ok (beta_hat,
      fun i j => emul (ediv (Fin (at_ ee 0 0)) (Fin (INR (nr X) - INR (nc X))%R)) (Fin (at_ XX_inv i j))).

(** Column vector from a list. *)
Definition colvec (l : list R) : mat := {| nr := length l; nc := 1; at_ := fun i _ => nth i l 0%R |}.

(** Scalar division in numba code compiled with the default error model: a zero divisor raises. *)
Definition py_div (x y : ext R) : result (ext R) :=
  match y with
  | Fin b => if aeqb b a0 then Err ZeroDivisionError else Ok (ediv x y)
  | _ => Ok (ediv x y)
  end.
