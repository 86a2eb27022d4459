(** What the feature transformers of a strategy should produce. *)
From Coq Require Import String.
From Verif Require Import Prelude Num Pipe_Model.
Open Scope nat_scope.

Section Features.
  Context {A : Type} {HA : Arith A}.
  Notation cell := (ext A).

  (** The entry that a transformer [tr], registered under a name, makes of the input X: under the same name, the output of
      this transformer for the frame of this name, or the frame itself if there is no transformer. *)
  Definition made_by (X : dict (frame A)) (tr : string * option (frame A -> result (frame A))) (entry : string * frame A) : Prop :=
    fst entry = fst tr /\
    exists f, In (fst tr, f) X /\ match snd tr with Some t => t f = Ok (snd entry) | None => snd entry = f end.
  (** A name is given a frame exactly if some transformer is registered under it. *)
  Definition expected_names (p : pipeline A) (X : dict (frame A)) : Prop :=
    forall k, In k (map fst X) <-> In k (map fst (primary_transformers p)) \/ In k (map fst (meta_transformers p)).
  (** The cells of a frame at a time: those of its row, or as many missing values as it has columns. *)
  Definition cells_or_missing (t : Z) (f : frame A) (part : list cell) : Prop :=
    In (t, part) (rows f) \/ ~ In t (index f) /\ part = repeat NaN (length (columns f)).
End Features.
