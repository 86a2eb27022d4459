(** The operations of float64 on rational numbers, executable: every sum and product is rounded to the nearest double. The models that are
    generic in their numbers can be run with them. Simplifications: no overflow and no signed zero. *)
From Coq Require Import QArith.
From Verif Require Import Num Rounding_Model.

(** [ainv] only occurs in [adiv x y = amul x (ainv y)], which is the rounded quotient. *)
Definition Arith_rounded : Arith Q := {|
  a0 := 0%Q; a1 := 1%Q;
  aadd := fun x y => rounded (x + y); aopp := Qopp;
  amul := fun x y => rounded (x * y); ainv := Qinv;
  altb := fun x y => negb (Qle_bool y x);
  aeqb := Qeq_bool
|}.
