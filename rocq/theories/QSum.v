(** Finite sums and means of rationals: shared vocabulary. *)
From Coq Require Export QArith Qabs Qminmax.
From Verif Require Export Prelude.
Global Open Scope nat_scope.

Definition Qn (n : nat) : Q := inject_Z (Z.of_nat n).
Definition qsum (l : list Q) : Q := fold_right Qplus 0%Q l.
Definition qmean (l : list Q) : Q := (qsum l / Qn (length l))%Q.
Definition qdot (a b : list Q) : Q := qsum (map (fun p => fst p * snd p)%Q (combine a b)).
