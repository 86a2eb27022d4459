(** Specification of the pipeline with sample weights, the feature union and the metalabeling helpers. *)
From Coq Require Import Reals String QArith.
From Verif Require Import Prelude Num Series Pipe_Model Wrap_Model.
From Verif Require Feat_Model.
Local Open Scope nat_scope.

(** * Names of steps *)

(** scikit-learn accepts the names of the steps: no name occurs twice, none contains a double underscore, and none is one of
    the pipeline's own parameters. *)
Definition contains (pattern s : string) : Prop := exists before after, s = (before ++ pattern ++ after)%string.
Definition proper_names (names : list string) : Prop :=
  NoDup names /\ (forall n, In n names -> ~ contains "__" n /\ n <> "steps"%string /\ n <> "memory"%string /\ n <> "verbose"%string).
Definition ends_with (suffix s : string) : Prop := exists before, s = (before ++ suffix)%string.

(** The same call with one keyword argument set, if it goes to the step of that name. *)
Definition with_argument {D Y V} (name parameter : string) (v : V) (c : call D Y V) : call D Y V :=
  if String.eqb (to_step c) name
  then {| to_step := to_step c; with_data := with_data c; with_labels := with_labels c; with_arguments := set_key (with_arguments c) parameter v |}
  else c.
(** The value of a keyword argument of a call. *)
Definition argument {D Y V} (c : call D Y V) (parameter : string) (v : V) : Prop := lookup (with_arguments c) parameter = Ok v.

(** * Arrays and frames *)
Section Union.
  Context {A : Type} {HA : Arith A} {F Y : Type}.
  Notation cell := (ext A).

  (** The weight that a dictionary has for a name: that of the first entry of this name, if there is one. *)
  Definition weight_in (weights : dict cell) (name : string) : option cell := option_map snd (find (fun p => String.eqb (fst p) name) weights).
  (** Array o is array x with every cell multiplied by the weight, or x itself if there is no weight. *)
  Definition scaled (w : option cell) (c c' : cell) : Prop := match w with Some w => c' = emul c w | None => c' = c end.
  Definition scaled_array (w : option cell) (x o : array A) : Prop :=
    match x, o with
    | Flat v, Flat v' => Forall2 (scaled w) v v'
    | Table n t, Table n' t' => n' = n /\ Forall2 (Forall2 (scaled w)) t t'
    | _, _ => False
    end.
  (** What the fitted parts return for a frame, in order, after weighting. *)
  Definition outputs (weights : dict cell) (fitted : list (string * (F -> result (array A)))) (X : F) (outs : list (array A)) : Prop :=
    Forall2 (fun p o => exists x, snd p X = Ok x /\ scaled_array (weight_in weights (fst p)) x o) fitted outs.
  (** A matrix of n rows; its rows. *)
  Definition table_of (n : nat) (o : array A) : Prop := match o with Table _ t => List.length t = n | Flat _ => False end.
  Definition flat (o : array A) : Prop := match o with Flat _ => True | Table _ _ => False end.
  Definition table_rows (o : array A) : list (list cell) := match o with Table _ t => t | Flat _ => [] end.
  Definition values (o : array A) : list cell := match o with Flat v => v | Table _ _ => [] end.
  (** Row i of the matrices side by side. *)
  Definition joined (outs : list (array A)) (i : nat) : list cell := flat_map (fun o => nth i (table_rows o) []) outs.

  (** Fitting the transformer makes no use of the labels. *)
  Definition unsupervised (t : transformer A F Y) : Prop := forall X y y', t X y = t X y'.
End Union.

(** A feature of bars as a part of a union: a matrix of one column. *)
Definition as_column (T : Feat_Model.frame -> result (list (ext R))) (X : Feat_Model.frame) : result (array R) :=
  do c <- T X ;; Ok (Table 1 (map (fun x => [x]) c)).

(** * Probabilities of a cross-validated primary model *)
Section Folds.
  Context {A : Type}.
  Notation cell := (ext A).

  (** One fold: the times of the validation samples, and the probabilities that the model gives them. *)
  Definition fold := (list Z * list (list cell))%type.
  (** A fold of k classes. *)
  Definition proper_fold (k : nat) (f : fold) : Prop := List.length (fst f) = List.length (snd f) /\ Forall (fun r => List.length r = k) (snd f).
  (** A call of the helper for a fold: the model, the validation features and the validation labels. *)
  Definition validates (k : nat) (c : (list (list cell) -> result (nat * list (list cell))) * frame A * list (Z * cell)) (f : fold) : Prop :=
    fst (fst c) (map snd (rows (snd (fst c)))) = Ok (k, snd f) /\ map fst (snd c) = fst f.
  (** The probabilities of a time: those given in its fold. *)
  Definition given (folds : list fold) (t : Z) (row : list cell) : Prop := exists f, In f folds /\ In (t, row) (combine (fst f) (snd f)).
End Folds.
