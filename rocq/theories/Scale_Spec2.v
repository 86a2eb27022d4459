(** Two frames of bars whose only difference is the unit of the columns that hold prices. *)
From Coq Require Import Reals String.
From Verif Require Import Series Feat_Model Scale_Spec.

Definition quoted_in (c : R) (prices : list string) (X X' : frame) : Prop :=
  f_index X' = f_index X /\
  (forall name, In name prices -> lookup name X' = option_map (map (in_units c)) (lookup name X)) /\
  (forall name, ~ In name prices -> lookup name X' = lookup name X).
