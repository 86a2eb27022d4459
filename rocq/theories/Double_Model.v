(** Numbers as numpy and pandas hold them: IEEE double (and single) precision, rounding to nearest, ties to even.
    Simplifications: no overflow (a result beyond the largest double is kept instead of becoming infinite) and no signed zero. *)
From Coq Require Import Reals.
From Flocq Require Import Core.
From Verif Require Import Num.

(** A result is rounded to a multiple of a power of two with a significand of 53 bits (24 for np.float32). *)
Definition double_format : Z -> Z := FLT_exp (-1074) 53.
Definition single_format : Z -> Z := FLT_exp (-149) 24.
Definition to_double (x : R) : R := round radix2 double_format ZnearestE x.
Definition to_single (x : R) : R := round radix2 single_format ZnearestE x.

(** The operations of float64. [ainv] only occurs in [adiv x y = amul x (ainv y)], which is the rounded quotient. *)
Definition Arith_double : Arith R := {|
  a0 := 0%R; a1 := 1%R;
  aadd := fun x y => to_double (x + y); aopp := Ropp;
  amul := fun x y => to_double (x * y); ainv := Rinv;
  altb := fun x y => if Rlt_dec x y then true else false;
  aeqb := fun x y => if Req_EM_T x y then true else false
|}.
