(** The pandas Series operations used by the code, on lists of values (the index is kept separately). *)
From Verif Require Export Prelude Num.
Global Open Scope nat_scope.

Section Ops.
  Context {A : Type} `{Arith A}.

  (** `s.shift(1)`: NaN first. *)
  Definition shift1 (l : list (ext A)) : list (ext A) := firstn (length l) (NaN :: l).

  (** Element-wise binary operation on two series with the same index. *)
  Definition zipw {B C D} (f : B -> C -> D) (x : list B) (y : list C) : list D :=
    map (fun p => f (fst p) (snd p)) (combine x y).

  (** `s.diff()`. *)
  Definition diff (l : list (ext A)) : list (ext A) := zipw esub l (shift1 l).

  (** `s.cumsum()`: NaN entries stay NaN and are skipped by the accumulation. *)
  Fixpoint cumsum_from (acc : ext A) (l : list (ext A)) : list (ext A) :=
    match l with
    | [] => []
    | x :: r => if is_nan x then NaN :: cumsum_from acc r
                else let acc' := eadd acc x in acc' :: cumsum_from acc' r
    end.
  Definition cumsum (l : list (ext A)) : list (ext A) := cumsum_from (Fin a0) l.
End Ops.
