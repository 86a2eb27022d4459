(** When a strategy can produce signals. *)
From Coq Require Import String.
From Verif Require Import Prelude Num Pipe_Model Pipe_Spec.
Open Scope nat_scope.

Section Ready.
  Context {A : Type} {HA : Arith A}.
  Notation cell := (ext A).

  (** The number of columns of the features in a dictionary. *)
  Definition width (d : dict (frame A)) : nat := length (concat (map columns (map snd d))).
  (** At least one frame of features; each has columns, distinct times, and rows of the right length. *)
  Definition good_features (d : dict (frame A)) : Prop := d <> [] /\ good_frames d /\ Forall proper (map snd d).
  (** A model that answers every non-empty complete matrix with [w] columns: one prediction and one row of probabilities per row, nothing missing. *)
  Definition answers (m : model A) (w : nat) : Prop :=
    n_classes m = length (classes m) /\
    forall rs, rs <> [] -> Forall (fun r => length r = w /\ ~ In NaN r) rs ->
      (exists v, predict m rs = Ok v /\ length v = length rs /\ ~ In NaN v) /\
      (exists q, predict_proba m rs = Ok q /\ length q = length rs /\ Forall (fun r => length r = length (classes m) /\ ~ In NaN r) q).
  (** No data ends before the leading data starts. *)
  Definition timely (p : pipeline A) (X : dict (frame A)) : Prop :=
    exists lead t0 rest, lookup X (align_on p) = Ok lead /\ index lead = t0 :: rest /\
      forall key f, In (key, f) X -> exists l last, index f = l ++ [last] /\ (t0 <= last)%Z.
  (** All features of a dictionary are there at this time. *)
  Definition complete (d : dict (frame A)) (t : Z) : Prop := Forall (complete_at t) (map snd d).
  (** The primary model fits its features. *)
  Definition primary_ready (p : pipeline A) (P : dict (frame A)) : Prop :=
    good_features P /\ (exists t, complete P t) /\ exists m, primary_model p = Some m /\ answers m (width P).
  (** The metalabeling model, if there is one, fits its features. *)
  Definition meta_ready (p : pipeline A) (P M : dict (frame A)) : Prop :=
    match metalabeling_model p with
    | None => True
    | Some mm => fitted mm = true /\ good_features M /\ (exists t, complete P t /\ complete M t) /\ answers mm (width M + length (prediction_columns p))
    end.
  (** The metalabeling model needs the predictions of the primary model, and for some time there is none. *)
  Definition prediction_missing (p : pipeline A) (P M : dict (frame A)) : Prop :=
    metalabeling_model p <> None /\ use_predictions p = true /\ use_proba p = false /\ exists t, complete M t /\ ~ complete P t.
  (** The sizes can be made. *)
  Definition sizer_ready (p : pipeline A) : Prop :=
    match bet_sizer p with
    | Some sizer => (forall m, decider p = Some m -> classes m <> []) /\ forall l, exists s, sizer l = Ok s /\ map fst s = map fst l
    | None => forall mm, metalabeling_model p = Some mm -> exists c, In c (classes mm) /\ eeqb c (Fin a1) = true
    end.
  (** Every labelled time is in every frame. *)
  Definition all_times (P : dict (frame A)) (y : list (Z * cell)) : Prop := forall t x f, In (t, x) y -> x <> NaN -> In f (map snd P) -> In t (index f).
  (** The features at usable times are finite numbers. *)
  Definition finite_features (P : dict (frame A)) (y : list (Z * cell)) : Prop :=
    forall t f row x, usable (map snd P) y t -> In f (map snd P) -> In (t, row) (rows f) -> In x row -> exists v, x = Fin v.
End Ready.
