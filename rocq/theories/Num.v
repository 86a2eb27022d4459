(** Extended exact numbers: the special values of IEEE arithmetic around an exact number type.
    Simplifications with respect to doubles: no rounding, no overflow, no signed zero. *)
From Coq Require Import QArith Reals.
From Verif Require Import Prelude.

(** The operations of an exact number type. *)
Class Arith (A : Type) := {
  a0 : A; a1 : A;
  aadd : A -> A -> A; aopp : A -> A; amul : A -> A -> A; ainv : A -> A;
  altb : A -> A -> bool;
  aeqb : A -> A -> bool
}.

#[global] Instance Arith_Q : Arith Q := {|
  a0 := 0%Q; a1 := 1%Q; aadd := Qplus; aopp := Qopp; amul := Qmult; ainv := Qinv;
  altb := fun x y => negb (Qle_bool y x); aeqb := Qeq_bool
|}.

#[global] Instance Arith_R : Arith R := {|
  a0 := 0%R; a1 := 1%R; aadd := Rplus; aopp := Ropp; amul := Rmult; ainv := Rinv;
  altb := fun x y => if Rlt_dec x y then true else false;
  aeqb := fun x y => if Req_EM_T x y then true else false
|}.

Inductive ext (A : Type) := Fin (a : A) | PInf | NInf | NaN.
Arguments Fin {A} _.
Arguments PInf {A}.
Arguments NInf {A}.
Arguments NaN {A}.

Section Ops.
  Context {A : Type} `{Arith A}.

  Definition adiv (x y : A) : A := amul x (ainv y).

  Definition is_nan (x : ext A) : bool := match x with NaN => true | _ => false end.

  Definition eadd (x y : ext A) : ext A :=
    match x, y with
    | NaN, _ | _, NaN => NaN
    | PInf, NInf | NInf, PInf => NaN
    | PInf, _ | _, PInf => PInf
    | NInf, _ | _, NInf => NInf
    | Fin a, Fin b => Fin (aadd a b)
    end.
  Definition eopp (x : ext A) : ext A :=
    match x with NaN => NaN | PInf => NInf | NInf => PInf | Fin a => Fin (aopp a) end.
  Definition esub (x y : ext A) : ext A := eadd x (eopp y).

  (** Sign of a non-NaN value: Lt, Eq (zero) or Gt. *)
  Definition asign (a : A) : comparison := if altb a a0 then Lt else if altb a0 a then Gt else Eq.
  Definition esign (x : ext A) : comparison :=
    match x with PInf => Gt | NInf => Lt | Fin a => asign a | NaN => Eq end.
  Definition signed_inf (c : comparison) : ext A := match c with Gt => PInf | Lt => NInf | Eq => NaN end.
  Definition mul_sign (a b : comparison) : comparison :=
    match a, b with Eq, _ | _, Eq => Eq | Gt, c => c | Lt, Gt => Lt | Lt, Lt => Gt end.

  Definition emul (x y : ext A) : ext A :=
    match x, y with
    | NaN, _ | _, NaN => NaN
    | Fin a, Fin b => Fin (amul a b)
    | _, _ => signed_inf (mul_sign (esign x) (esign y))
    end.
  Definition ediv (x y : ext A) : ext A :=
    match x, y with
    | NaN, _ | _, NaN => NaN
    | Fin a, Fin b => if aeqb b a0 then signed_inf (asign a) else Fin (adiv a b)
    | Fin a, _ => Fin a0
    | _, Fin b => signed_inf (match asign b with Lt => mul_sign (esign x) Lt | _ => esign x end)
    | _, _ => NaN
    end.

  (** Comparisons: false as soon as a NaN is involved. *)
  Definition eltb (x y : ext A) : bool :=
    match x, y with
    | NaN, _ | _, NaN => false
    | Fin a, Fin b => altb a b
    | NInf, NInf => false
    | NInf, _ => true
    | _, PInf => match x with PInf => false | _ => true end
    | _, _ => false
    end.
  Definition eeqb (x y : ext A) : bool :=
    match x, y with
    | Fin a, Fin b => aeqb a b
    | PInf, PInf | NInf, NInf => true
    | _, _ => false
    end.
  Definition eleb (x y : ext A) : bool := eltb x y || eeqb x y.

  Definition eabs (x : ext A) : ext A :=
    match x with NaN => NaN | PInf | NInf => PInf | Fin a => Fin (if altb a a0 then aopp a else a) end.

  (** Python's built-in max/min of two arguments: the second wins only if it compares greater/smaller. *)
  Definition py_max (x y : ext A) : ext A := if eltb x y then y else x.
  Definition py_min (x y : ext A) : ext A := if eltb y x then y else x.

  (** Sum in order; `np.nansum` counts NaN as zero. *)
  Definition esum (l : list (ext A)) : ext A := fold_left eadd l (Fin a0).
  Definition nansum (l : list (ext A)) : ext A := esum (map (fun x => if is_nan x then Fin a0 else x) l).

  Fixpoint anat (n : nat) : A := match n with O => a0 | S m => aadd (anat m) a1 end.
End Ops.

(** `np.log`, `np.sqrt`, `np.exp`. *)
Definition elog (x : ext R) : ext R :=
  match x with
  | Fin a => if Rlt_dec 0 a then Fin (ln a) else if Req_EM_T a 0 then NInf else NaN
  | PInf => PInf | NInf => NaN | NaN => NaN
  end.
Definition esqrt (x : ext R) : ext R :=
  match x with
  | Fin a => if Rlt_dec a 0 then NaN else Fin (sqrt a)
  | PInf => PInf | NInf => NaN | NaN => NaN
  end.
Definition eexp (x : ext R) : ext R :=
  match x with Fin a => Fin (exp a) | PInf => PInf | NInf => Fin 0%R | NaN => NaN end.
