(** Specification of the frames of the combinatorial backtest. *)
From Coq Require Import String Sorting.Permutation.
From Verif Require Import Prelude Num Series Pipe_Model CV_Model Paths_Model.
Local Open Scope nat_scope.

Section Paths.
  Context {A : Type} {S : Type}.
  Notation cell := (ext A).

  (** The pipeline as it is after fitting the first j + 1 splits in turn, each on the features and labels of its training
      rows. *)
  Inductive fitted (p : signal_pipeline A S) (X y : frame A) (label : nat) (splits : list (list nat * list nat)) (st0 : S) : nat -> S -> Prop :=
  | first_split s train test values labels : nth_error splits 0 = Some (train, test) ->
      iloc X train = Ok values -> iloc y train = Ok labels -> sp_fit p st0 values (map (fun r => nth label r NaN) labels) = Ok s ->
      fitted p X y label splits st0 0 s
  | next_split j s s' train test values labels : fitted p X y label splits st0 j s -> nth_error splits (1 + j) = Some (train, test) ->
      iloc X train = Ok values -> iloc y train = Ok labels -> sp_fit p s values (map (fun r => nth label r NaN) labels) = Ok s' ->
      fitted p X y label splits st0 (1 + j) s'.

  (** The prediction and the probabilities that the pipeline gives to row i, when asked about all rows of a block. *)
  Definition says (p : signal_pipeline A S) (s : S) (X : frame A) (block : list nat) (i : nat) (prediction : cell) (probabilities : list cell) : Prop :=
    exists values predictions probas q, iloc X block = Ok values /\ sp_predict p s values = Ok predictions /\ sp_proba p s values = Ok probas /\
      nth_error block q = Some i /\ nth_error predictions q = Some prediction /\ nth_error probas q = Some probabilities.

  (** A pipeline that can be fitted, and then predicts a value and some probabilities for every row. *)
  Definition usable (p : signal_pipeline A S) : Prop :=
    (forall s values labels, List.length values = List.length labels -> exists s', sp_fit p s values labels = Ok s') /\
    (forall s values, exists predictions probas, sp_predict p s values = Ok predictions /\ List.length predictions = List.length values /\
       sp_proba p s values = Ok probas /\ List.length probas = List.length values /\ Forall (fun r => r <> []) probas).

  (** Shuffling gives a permutation of the positions. *)
  Definition shuffles (order : nat -> nat -> nat -> list nat) : Prop := forall p k n, Permutation (order p k n) (seq 0 n).

  (** The labels of a time: a row of y of that time, or missing values if y has no row of that time. *)
  Definition labels_at (y : frame A) (t : Z) (cells : list cell) : Prop :=
    In (t, cells) (rows y) \/ (~ In t (index y) /\ cells = repeat NaN (List.length (columns y))).

  (** How often a time occurs. *)
  Definition occurrences (t : Z) (l : list Z) : nat := count_occ Z.eq_dec l t.
End Paths.
