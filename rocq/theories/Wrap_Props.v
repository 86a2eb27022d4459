(** Properties C81-C85: sample weights in pipelines, feature unions, helpers for metalabeling models. *)
From Coq Require Import Reals String QArith Lia.
From Verif Require Import Prelude Num Series Pipe_Model Pipe_Spec Wrap_Model Wrap_Spec Wrap_Proofs Wrap_Proofs2 Wrap_Proofs3 Wrap_Proofs4.
From Verif Require Feat_Model Feat_Spec Feat_Props.
Local Open Scope nat_scope.
Local Open Scope string_scope.

(** ** C81: sample weights *)

(** Fitting with sample weights makes the same calls, in the same order and with the same data, as fitting without, but for
    one keyword argument of the calls to the last step: its sample_weight is set to the weights. *)
Theorem C81_same_calls : forall (D Y V : Type) (steps : list (step D Y V)) name e w arguments X y,
  proper_names (map fst steps ++ [name])%list -> ~ ends_with "_" name -> NoDup (keys arguments) ->
  fst (mizar_fit (steps ++ [(name, e)])%list X y (Some w) arguments) =
    map (with_argument name "sample_weight" w) (fst (mizar_fit (steps ++ [(name, e)])%list X y None arguments)).
Proof. intros D Y V. exact weights_calls. Qed.
Print Assumptions C81_same_calls.

(** If fitting succeeds, the last call was the only one to the last step, and it had the weights. *)
Theorem C81_delivered : forall (D Y V : Type) (steps : list (step D Y V)) name e w arguments X y,
  proper_names (map fst steps ++ [name])%list -> ~ ends_with "_" name -> NoDup (keys arguments) ->
  snd (mizar_fit (steps ++ [(name, Some e)])%list X y (Some w) arguments) = Ok tt ->
  exists before c, fst (mizar_fit (steps ++ [(name, Some e)])%list X y (Some w) arguments) = (before ++ [c])%list /\ to_step c = name /\
    argument c "sample_weight" w /\ (forall c', In c' before -> to_step c' <> name).
Proof. intros D Y V. exact weights_delivered. Qed.
Print Assumptions C81_delivered.

(** A last step whose name ends in an underscore, which scikit-learn accepts, cannot be fitted with weights: they are looked
    up as those of a step without the underscore, and fitting fails before any step is called. *)
Theorem C81_trailing_underscore_refuted : forall (D Y V : Type) (steps : list (step D Y V)) m e w arguments X y,
  proper_names (map fst steps ++ [(m ++ "_")%string])%list -> ~ In m (map fst steps) ->
  fst (mizar_fit (steps ++ [((m ++ "_")%string, e)])%list X y (Some w) arguments) = [] /\
  exists ex, snd (mizar_fit (steps ++ [((m ++ "_")%string, e)])%list X y (Some w) arguments) = Err ex.
Proof. intros D Y V. exact weights_misdirected. Qed.
Print Assumptions C81_trailing_underscore_refuted.

(** With improper names of steps nothing is called: ValueError, unless the routing of the arguments has failed before. *)
Theorem C81_improper_names : forall (D Y V : Type) (steps : list (step D Y V)) weights arguments X y, ~ proper_names (map fst steps) ->
  fst (mizar_fit steps X y weights arguments) = [] /\ (exists ex, snd (mizar_fit steps X y weights arguments) = Err ex) /\
  snd (mizar_fit steps X y None []) = Err ValueError.
Proof.
  intros D Y V steps weights arguments X y H.
  assert (E : valid_names (map fst steps) = false) by (apply Bool.not_true_is_false; now rewrite valid_names_spec).
  assert (K : forall a, fst (pipeline_fit steps X y a) = [] /\ exists ex, snd (pipeline_fit steps X y a) = Err ex).
  { intros a. unfold pipeline_fit. rewrite E. destruct (sort_arguments steps a) as [d|ex]; (split; [reflexivity|eexists; reflexivity]). }
  split; [|split].
  - destruct weights as [w|]; cbn [mizar_fit]; [|apply K]. destruct (rev steps); [reflexivity|apply K].
  - destruct weights as [w|]; cbn [mizar_fit]; [|apply K]. destruct (rev steps); [eexists; reflexivity|apply K].
  - cbn [mizar_fit]. unfold pipeline_fit. rewrite E. reflexivity.
Qed.
Print Assumptions C81_improper_names.
Example C81_case_improper : ~ proper_names ["scale"; "scale"].
Proof. intros [H _]. inversion H. subst. apply H2. now left. Qed.

(** Steps on numbers: the transformer adds one, the final estimator accepts anything. *)
Definition plus_one : estimator nat nat nat := {| fit_transform := fun X _ _ => Ok (S X); fit := fun _ _ _ => Ok tt |}.
Example C81_case : mizar_fit [("scale", Some plus_one); ("skip", None); ("svc", Some plus_one)] 10 1 (Some 7) [("svc__c", 3); ("scale__c", 4)] =
  ([{| to_step := "scale"; with_data := 10; with_labels := 1; with_arguments := [("c", 4)] |};
    {| to_step := "svc"; with_data := 11; with_labels := 1; with_arguments := [("c", 3); ("sample_weight", 7)] |}], Ok tt).
Proof. reflexivity. Qed.
Lemma names_proper l : valid_names l = true -> proper_names l. Proof. apply valid_names_spec. Qed.
Example C81_hypotheses_met : proper_names ["scale"; "skip"; "svc"] /\ ~ ends_with "_" "svc" /\ proper_names ["scale"; "svc_"] /\ ~ In "svc" ["scale"].
Proof.
  split; [now apply names_proper|]. split; [|split; [now apply names_proper|intros [H|[]]; discriminate]].
  intros (b & H). destruct b as [|? [|? [|? [|? ?]]]]; discriminate.
Qed.
(** Such weights may also end up in another step, under another name. *)
Example C81_swallowed : mizar_fit [("svc", Some plus_one); ("svc_", Some plus_one)] 10 1 (Some 7) [] =
  ([{| to_step := "svc"; with_data := 10; with_labels := 1; with_arguments := [("_sample_weight", 7)] |};
    {| to_step := "svc_"; with_data := 11; with_labels := 1; with_arguments := [] |}], Ok tt).
Proof. reflexivity. Qed.

(** ** C82: rows of a feature union *)

(** If every transformer returns a matrix with one row per row of the frame, the union has the frame's index, and its rows
    are the rows of the matrices side by side, in the order of the transformers. *)
Theorem C82_rows : forall (A : Type) (HA : Arith A) (F : Type) (times : F -> list Z) weights fitted X outs,
  outputs weights fitted X outs -> Forall (table_of (List.length (times X))) outs ->
  exists R, union_transform times weights fitted X = Ok R /\ map fst R = times X /\
    forall i t row, nth_error R i = Some (t, row) -> row = joined outs i.
Proof. intros A HA F. exact union_tables. Qed.
Print Assumptions C82_rows.

(** It accepts nothing else but flat arrays that together have as many values as the frame has rows... *)
Theorem C82_accepts : forall (A : Type) (HA : Arith A) (F : Type) (times : F -> list Z) weights fitted X outs, outputs weights fitted X outs ->
  (exists R, union_transform times weights fitted X = Ok R) <->
  Forall (table_of (List.length (times X))) outs \/ Forall flat outs /\ List.length (flat_map values outs) = List.length (times X).
Proof. intros A HA F. exact union_accepts. Qed.
Print Assumptions C82_accepts.
(** ... and raises a ValueError for everything else. *)
Theorem C82_rejects : forall (A : Type) (HA : Arith A) (F : Type) (times : F -> list Z) weights fitted X outs e, outputs weights fitted X outs ->
  union_transform times weights fitted X = Err e -> e = ValueError.
Proof. intros A HA F. exact union_error. Qed.
Print Assumptions C82_rejects.
Theorem C82_failing_part : forall (A : Type) (HA : Arith A) (F : Type) (times : F -> list Z) weights fitted X p e,
  In p fitted -> snd p X = Err e -> exists e', union_transform times weights fitted X = Err e'.
Proof. intros A HA F. exact union_part_fails. Qed.
Print Assumptions C82_failing_part.

(** The identity transformer: whatever it was fitted on, it returns its argument, alone and in a union without weights. *)
Theorem C82_identity : forall (A : Type) (HA : Arith A) (Y : Type) (X : frame A),
  identity_transform X = X /\
  forall name (X0 : frame A) (y : option Y), exists fitted, union_fit [(name, Some identity_part)] X0 y = Ok fitted /\ union_transform index [] fitted X = Ok (rows X).
Proof. intros A HA Y. exact identity_union. Qed.
Print Assumptions C82_identity.

(** A union of features without look-ahead has no look-ahead. *)
Theorem C82_no_look_ahead : forall weights parts X n,
  Forall (fun p => Feat_Spec.no_look_ahead (snd p) /\ Feat_Spec.one_per_row (snd p)) parts -> Feat_Spec.well_formed X ->
  let fitted := map (fun p => (fst p, as_column (snd p))) parts in
  union_transform Feat_Model.f_index weights fitted (Feat_Spec.head n X) =
    match union_transform Feat_Model.f_index weights fitted X with Ok R => Ok (firstn n R) | Err e => Err e end.
Proof. exact union_no_look_ahead. Qed.
Print Assumptions C82_no_look_ahead.
Example C82_features : Forall (fun p => Feat_Spec.no_look_ahead (snd p) /\ Feat_Spec.one_per_row (snd p))
  [("max", Feat_Model.local_max_to_close 20); ("vpin", Feat_Model.vpin 50 "volume" "buy" "sell")].
Proof.
  pose proof (Feat_Props.C40_features 20 "close" "volume" "high" "low" "buy" "sell") as H1. pose proof (Feat_Props.C40_features 50 "close" "volume" "high" "low" "buy" "sell") as H2.
  pose proof (Feat_Props.C40_rows 20 "close" "volume" "high" "low" "buy" "sell" 1 2 true "") as H3. pose proof (Feat_Props.C40_rows 50 "close" "volume" "high" "low" "buy" "sell" 1 2 true "") as H4.
  constructor; [|constructor; [|constructor]]; cbn [snd]; tauto.
Qed.

Definition small : frame Q := {| columns := ["a"; "b"]; rows := [(1%Z, [Fin 1; Fin 2]%Q); (5%Z, [Fin 3; NaN]%Q)] |}.
Definition column_a (X : frame Q) : result (array Q) := Ok (Flat (map (fun r => nth 0 (snd r) NaN) (rows X))).
Example C82_case : exists f, union_fit [("id", Some identity_part); ("again", Some (identity_part (Y := nat))); ("off", None)] small None = Ok f /\
  union_transform index [("again", Fin 2%Q)] f small = Ok [(1%Z, [Fin 1; Fin 2; Fin 2; Fin 4]); (5%Z, [Fin 3; NaN; Fin 6; NaN])]%Q.
Proof. eexists. split; reflexivity. Qed.
(** One flat result is accepted, two are not, although each has one value per row. *)
Example C82_flat : union_transform index [] [("a", column_a)] small = Ok [(1%Z, [Fin 1]); (5%Z, [Fin 3])]%Q /\
  union_transform index [] [("a", column_a); ("b", column_a)] small = Err ValueError.
Proof. split; reflexivity. Qed.

(** ** C83: fitting and transforming at once *)

(** For transformers that make no use of labels, it is the same as fitting and then transforming. *)
Theorem C83_unsupervised : forall (A : Type) (HA : Arith A) (F Y : Type) (times : F -> list Z) weights (parts : list (part A F Y)) X y fitted R,
  Forall (fun p => forall t, snd p = Some t -> unsupervised t) parts ->
  union_fit_transform times weights parts X y = Ok (fitted, R) <->
  union_fit parts X y = Ok fitted /\ union_transform times weights fitted X = Ok R.
Proof. intros A HA F Y. exact fit_then_transform. Qed.
Print Assumptions C83_unsupervised.
Example C83_identity : forall (A : Type) Y, unsupervised (identity_part (A := A) (Y := Y)). Proof. intros A Y X y y'. reflexivity. Qed.

(** For the others it is not: whatever the labels, the transformers are fitted without. *)
Theorem C83_labels_dropped_refuted :
  (forall (A : Type) (HA : Arith A) (F Y : Type) (times : F -> list Z) weights (parts : list (part A F Y)) X y,
     union_fit_transform times weights parts X y = union_fit_transform times weights parts X None) /\
  ~ (forall (parts : list (part Q (frame Q) nat)) X y fitted R,
       union_fit parts X y = Ok fitted -> union_transform index [] fitted X = Ok R -> exists f, union_fit_transform index [] parts X y = Ok (f, R)).
Proof.
  split; [reflexivity|]. intros H.
  set (t := fun (_ : frame Q) (y : option nat) => Ok (fun X : frame Q => Ok (Table 1 (map (fun _ => [match y with Some _ => Fin 1%Q | None => NaN end]) (rows X)))) : result (frame Q -> result (array Q))).
  destruct (H [("t", Some t)] small (Some 0) _ _ eq_refl eq_refl) as [f E]. cbn in E. discriminate.
Qed.
Print Assumptions C83_labels_dropped_refuted.

(** ** C84: probabilities of a cross-validated primary model *)

(** Called once per fold, the helper leaves index and columns of the given frame as they are and adds one column per class,
    in which every time has the probabilities given by the model of its fold, and NaN if it was in no fold. *)
Theorem C84_folds : forall (A : Type) (X0 : frame A) k, 1 <= k -> increasingZ (index X0) ->
  Forall (fun r => List.length (snd r) = List.length (columns X0)) (rows X0) -> (forall i, ~ In (proba_column i) (columns X0)) ->
  forall calls folds, Forall2 (validates k) calls folds -> calls <> [] -> Forall (proper_fold k) folds -> NoDup (concat (map fst folds)) ->
  (forall f t, In f folds -> In t (fst f) -> In t (index X0)) ->
  exists R, foldM (fun X c => get_pred_proba_features (Some (fst (fst c))) X (snd (fst c)) (snd c)) X0 calls = Ok R /\
    columns R = (columns X0 ++ map proba_column (seq 0 k))%list /\ index R = index X0 /\
    forall t row, In (t, row) (rows R) -> exists row0 extra, row = (row0 ++ extra)%list /\ In (t, row0) (rows X0) /\ List.length extra = k /\
      (given folds t extra \/ (forall f, In f folds -> ~ In t (fst f)) /\ extra = repeat NaN k).
Proof. intros A. exact all_folds. Qed.
Print Assumptions C84_folds.
Theorem C84_no_predict_proba : forall (A : Type) (X Xv : frame A) yv, get_pred_proba_features None X Xv yv = Err AttributeError.
Proof. intros A. exact no_predict_proba. Qed.
Print Assumptions C84_no_predict_proba.

Example C84_names : map proba_column [0; 11] = ["primary_side_pred_proba_0"; "primary_side_pred_proba_11"]. Proof. reflexivity. Qed.
Definition predictions : frame Q := {| columns := ["pred"]; rows := [(1%Z, [Fin 1%Q]); (2%Z, [Fin 0%Q]); (3%Z, [Fin 1%Q])] |}.
Definition fold_call (p : list (list (ext Q))) (ts : list Z) := (fun _ : list (list (ext Q)) => Ok (2, p), predictions, map (fun t => (t, Fin 0%Q)) ts).
Definition half : ext Q := Fin (1 # 2)%Q.
Example C84_case : foldM (fun X c => get_pred_proba_features (Some (fst (fst c))) X (snd (fst c)) (snd c)) predictions
    [fold_call [[Fin 1; Fin 0]%Q] [3%Z]; fold_call [[half; half]] [1%Z]] =
  Ok {| columns := ["pred"; "primary_side_pred_proba_0"; "primary_side_pred_proba_1"];
        rows := [(1%Z, [Fin 1%Q; half; half]); (2%Z, [Fin 0%Q; NaN; NaN]); (3%Z, [Fin 1%Q; Fin 1%Q; Fin 0%Q])] |}.
Proof. reflexivity. Qed.
Example C84_hypotheses_met : increasingZ (index predictions) /\ (forall i, ~ In (proba_column i) (columns predictions)) /\
  Forall2 (validates 2) [fold_call [[Fin 1; Fin 0]%Q] [3%Z]; fold_call [[half; half]] [1%Z]] [([3%Z], [[Fin 1; Fin 0]%Q]); ([1%Z], [[half; half]])] /\
  Forall (proper_fold 2) [([3%Z], [[Fin 1; Fin 0]%Q]); ([1%Z], [[half; half]])].
Proof.
  split; [repeat constructor|]. split; [intros i [H|[]]; discriminate|]. split; [repeat constructor|].
  repeat constructor.
Qed.

(** ** C85: metalabels that cannot be learned *)

(** Metalabels are refused exactly if there are any and all are the same; the message says "incorrect" if all are 0, and
    "correct" otherwise. *)
Theorem C85_metalabels : forall y,
  (check_y_metalabel y = Some "incorrect" <-> y <> [] /\ forall x, In x y -> (x == 0)%Q) /\
  (check_y_metalabel y = Some "correct" <-> y <> [] /\ exists v, ~ (v == 0)%Q /\ forall x, In x y -> (x == v)%Q) /\
  (check_y_metalabel y = None <-> y = [] \/ exists a b, In a y /\ In b y /\ ~ (a == b)%Q).
Proof. exact metalabels. Qed.
Print Assumptions C85_metalabels.
Example C85_cases : check_y_metalabel [0; 0]%Q = Some "incorrect" /\ check_y_metalabel [1]%Q = Some "correct" /\ check_y_metalabel [1; 0; 1]%Q = None /\ check_y_metalabel [] = None.
Proof. repeat split. Qed.
