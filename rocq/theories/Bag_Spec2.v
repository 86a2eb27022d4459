(** Vocabulary for out-of-bag scoring with estimators that may know fewer classes than the ensemble. *)
From Verif Require Import Prelude QSum Num Boot_Model Bag_Model Bag_Spec.
Open Scope nat_scope.

Section Spec.
  Context {num gen est0 model : Type}.

  (** Probabilities row by row; each model has as many of them as it knows classes. An empty batch may fail. *)
  Definition by_rows (proba : model -> list (list num) -> result (list (list Q))) (f : model -> list num -> list Q) : Prop :=
    forall m rows, rows <> [] -> proba m rows = Ok (map (f m) rows).
  (** The probabilities of a model that knows all [nc] classes or a single one. *)
  Definition all_or_one (nc : nat) (v : list Q) : Prop := length v = nc \/ length v = 1.
  (** A decision in which a model that knows all classes counts once, with its probabilities, and a model that knows a single class
      counts once for every class. *)
  Definition pooled (nc : nat) (l : list (list Q)) (row : list (ext Q)) : Prop :=
    let all := filter (fun v => length v =? nc) l in
    let one := filter (fun v => negb (length v =? nc)) l in
    length row = nc /\ forall c, c < nc ->
      match l with
      | [] => nth_error row c = Some NaN
      | _ => exists q, nth_error row c = Some (Fin q) /\
               (q == (qsum (map (fun v => nth c v 0) all) + Qn (length one)) / (Qn (length all) + Qn nc * Qn (length one)))%Q
      end.
  (** Estimator [t] leaves a sample out, and of each sample that it leaves out it says something about all classes or about one. *)
  Definition scorable (f : model -> list num -> list Q) (nc : nat) (rows : list (list num)) (t : trained model) : Prop :=
    (exists i, i < length rows /\ ~ In i (t_samples model t)) /\
    forall i x x', nth_error rows i = Some x -> ~ In i (t_samples model t) -> at_positions x (t_features model t) x' -> all_or_one nc (f (t_model model t) x').
End Spec.
