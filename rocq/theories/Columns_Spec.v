(** Vocabulary: which columns of a frame a component reads. *)
From Coq Require Import Reals String.
From Verif Require Import Prelude Num Feat_Model.
Open Scope nat_scope.

(** The frame has a column of this name. *)
Definition has (X : frame) (name : string) : Prop := In name (map fst (f_cols X)).
(** Two frames with the same times and the same values in these columns. *)
Definition agree_on (names : list string) (X X' : frame) : Prop :=
  f_index X = f_index X' /\ forall n, In n names -> lookup n X = lookup n X'.
(** [T] reads these columns, in this order, each with the exception that is raised if it is the first one that is missing: it succeeds
    whenever all of them are there, whatever they hold, and nothing else in the frame but the times makes a difference. *)
Definition reads {B} (T : frame -> result B) (cols : list (string * exn)) : Prop :=
  (forall X, (forall n, In n (map fst cols) -> has X n) -> exists out, T X = Ok out) /\
  (forall X before n e after, cols = before ++ (n, e) :: after -> (forall m, In m (map fst before) -> has X m) -> ~ has X n -> T X = Err e) /\
  (forall X X', agree_on (map fst cols) X X' -> T X = T X').
