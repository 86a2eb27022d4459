(** The same data on another clock: every time replaced through a function that keeps their order. *)
From Verif Require Import Prelude CV_Model.

Definition keeps_order (f : Z -> Z) : Prop := forall a b, (a < b)%Z -> (f a < f b)%Z.

(** The outcome of a function, or its error. *)
Definition on_ok {A B} (g : A -> B) (r : result A) : result B := match r with Ok x => Ok (g x) | Err e => Err e end.

(** Samples (start and end, either may be missing). *)
Definition retime_sample (f : Z -> Z) (s : option Z * option Z) : option Z * option Z := (option_map f (fst s), option_map f (snd s)).
(** Labelled rows: index value and end of the label. *)
Definition retime_span (f : Z -> Z) (r : Z * option Z) : Z * option Z := (f (fst r), option_map f (snd r)).
(** Anything indexed by time. *)
Definition retime_row {V} (f : Z -> Z) (r : Z * V) : Z * V := (f (fst r), snd r).
(** A cross-validator with other times and another embargo. *)
Definition retime_cv (f : Z -> Z) (embargo : Z) (c : cv) : cv :=
  {| n_splits := n_splits c; n_groups := n_groups c; n_test_splits := n_test_splits c;
     pred_times := map f (pred_times c); eval_times := map (option_map f) (eval_times c); embargo_td := embargo |}.
