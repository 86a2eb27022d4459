(** Parameters of estimators: general facts. *)
From Coq Require Import String Permutation QArith.
From Verif Require Import Prelude PreludeFacts Num Params_Model Params_Spec.
Local Open Scope nat_scope.
Local Open Scope string_scope.

Lemma assoc_In : forall V (l : list (string * V)) n v, assoc l n = Some v -> In (n, v) l.
Proof.
  induction l as [|[k w] r IH]; intros n v H; [discriminate|]. cbn in H. destruct (String.eqb_spec k n); [injection H as ->; subst; now left|right; auto].
Qed.
Lemma assoc_None : forall V (l : list (string * V)) n, assoc l n = None <-> ~ In n (map fst l).
Proof.
  induction l as [|[k w] r IH]; intros n; cbn; [tauto|]. destruct (String.eqb_spec k n); [split; [discriminate|intros H; exfalso; auto]|].
  rewrite IH. tauto.
Qed.
Lemma In_assoc : forall V (l : list (string * V)) n v, NoDup (map fst l) -> In (n, v) l -> assoc l n = Some v.
Proof.
  induction l as [|[k w] r IH]; intros n v H I; [contradiction|]. cbn in *. inversion H; subst. destruct I as [E|I].
  - injection E as -> ->. now rewrite String.eqb_refl.
  - destruct (String.eqb_spec k n); [subst; exfalso; apply H2; apply in_map_iff; now exists (n, v)|auto].
Qed.
Lemma has_name_iff : forall V (l : list (string * V)) n, has_name l n = true <-> In n (map fst l).
Proof.
  intros V l n. unfold has_name. rewrite existsb_exists, in_map_iff. split; intros ([k v] & A & B).
  - apply String.eqb_eq in B. cbn in B. subst. eexists (_, v). split; [reflexivity|exact A].
  - cbn in A. subst. eexists (_, v). split; [exact B|apply String.eqb_refl].
Qed.

Lemma insert_perm : forall n l, Permutation (insert_name n l) (n :: l).
Proof.
  induction l as [|m r IH]; [reflexivity|]. cbn. destruct (String.leb n m); [reflexivity|]. rewrite IH. apply perm_swap.
Qed.
Lemma param_names_perm : forall c, Permutation (param_names c) (map fst (parameters c)).
Proof.
  intros c. unfold param_names, names. induction (map fst (parameters c)) as [|n l IH]; [reflexivity|]. cbn. rewrite insert_perm. now constructor.
Qed.
Lemma param_names_In : forall c n, In n (param_names c) <-> In n (map fst (parameters c)).
Proof. intros c n. split; apply Permutation_in; [|symmetry]; apply param_names_perm. Qed.

(** get_params in terms of attributes. *)
Lemma get_params_ok : forall o, (forall n, In n (map fst (parameters (class_of o))) -> exists v, assoc (attributes o) n = Some v) ->
  exists l, get_params o = Ok l /\ map fst l = param_names (class_of o) /\ forall n v, In (n, v) l <-> In n (map fst (parameters (class_of o))) /\ assoc (attributes o) n = Some v.
Proof.
  intros o H. unfold get_params. assert (H' : forall n, In n (param_names (class_of o)) -> exists v, assoc (attributes o) n = Some v)
    by (intros n I; apply H, param_names_In, I).
  assert (G : exists l, mapM (fun n => do v <- getattr o n ;; Ok (n, v)) (param_names (class_of o)) = Ok l /\ map fst l = param_names (class_of o) /\
    forall n v, In (n, v) l <-> In n (param_names (class_of o)) /\ assoc (attributes o) n = Some v).
  { revert H'. induction (param_names (class_of o)) as [|m r IH]; intros H'.
    - exists []. split; [reflexivity|split; [reflexivity|]]. intros n v. cbn. tauto.
    - destruct IH as (l & E & F & G); [intros n I; apply H'; now right|]. destruct (H' m) as (v & Hv); [now left|].
      exists ((m, v) :: l). cbn [mapM]. unfold getattr at 1. rewrite Hv. cbn [bind]. rewrite E. cbn [bind]. split; [reflexivity|]. split; [cbn; now rewrite F|].
      intros n w. cbn [In]. rewrite G. split.
      + intros [X|[X Y]]; [injection X as <- <-; auto|auto].
      + intros [[->|X] Y]; [left; congruence|auto]. }
  destruct G as (l & E & F & G). exists l. split; [exact E|]. split; [exact F|]. intros n v. rewrite G, param_names_In. tauto.
Qed.
Lemma get_params_err : forall o n, In n (map fst (parameters (class_of o))) -> assoc (attributes o) n = None -> get_params o = Err AttributeError.
Proof.
  intros o n I H. apply param_names_In in I. unfold get_params. induction (param_names (class_of o)) as [|m r IH]; [contradiction|].
  cbn [mapM]. unfold getattr at 1. destruct (assoc (attributes o) m) eqn:E; cbn [bind]; [|reflexivity].
  destruct I as [->|I]; [congruence|]. now rewrite (IH I).
Qed.

(** Calls. *)
Lemma construct_ok : forall c kw o, construct c kw = Ok o ->
  (forall n, In n (map fst kw) -> In n (map fst (parameters c))) /\ (forall n, In (n, None) (parameters c) -> In n (map fst kw)) /\
  exists a, init c (bound c kw) = Ok a /\ o = {| class_of := c; attributes := a |}.
Proof.
  intros c kw o H. unfold construct in H. destruct (existsb _ kw) eqn:E1; [discriminate|]. cbn [raise_if bind] in H.
  destruct (existsb _ (parameters c)) eqn:E2; [discriminate|]. cbn [raise_if bind] in H.
  destruct (init c (bound c kw)) as [a|e] eqn:E3; [|discriminate]. injection H as <-. split; [|split; [|now exists a]].
  - intros n I. apply in_map_iff in I. destruct I as ([k v] & <- & I). cbn [fst]. rewrite <- has_name_iff. destruct (has_name (parameters c) k) eqn:E; [reflexivity|].
    assert (X : existsb (fun kv => negb (has_name (parameters c) (fst kv))) kw = true) by (apply existsb_exists; exists (k, v); cbn; now rewrite E).
    congruence.
  - intros n I. rewrite <- has_name_iff. destruct (has_name kw n) eqn:E; [reflexivity|].
    match type of E2 with existsb ?f _ = _ => assert (X : existsb f (parameters c) = true) by (apply existsb_exists; exists (n, None); cbn; now rewrite E) end.
    congruence.
Qed.
Lemma construct_intro : forall c kw a,
  (forall n, In n (map fst kw) -> In n (map fst (parameters c))) -> (forall n, In (n, None) (parameters c) -> In n (map fst kw)) ->
  init c (bound c kw) = Ok a -> construct c kw = Ok {| class_of := c; attributes := a |}.
Proof.
  intros c kw a H1 H2 H3. unfold construct. replace (existsb _ kw) with false; [|symmetry; apply not_true_is_false; intros X; apply existsb_exists in X; destruct X as ([k v] & I & X)].
  - cbn [raise_if bind]. replace (existsb _ (parameters c)) with false; [cbn [raise_if bind]; now rewrite H3|].
    symmetry; apply not_true_is_false; intros X; apply existsb_exists in X; destruct X as ([k [v|]] & I & X); [discriminate|].
    cbn [snd fst] in X. apply negb_true_iff in X. specialize (H2 k I). rewrite <- has_name_iff in H2. congruence.
  - cbn [fst] in X. apply negb_true_iff in X. assert (Y : In k (map fst (parameters c))) by (apply H1; apply in_map_iff; now exists (k, v)).
    rewrite <- has_name_iff in Y. congruence.
Qed.
Lemma bound_takes : forall c kw o n v, NoDup (map fst (parameters c)) -> call kw -> construct c kw = Ok o ->
  takes c kw n v <-> In n (map fst (parameters c)) /\ bound c kw n = v.
Proof.
  intros c kw o n v D K H. apply construct_ok in H. destruct H as (H1 & H2 & _). unfold takes, bound. split.
  - intros [I [J|[J L]]]; (split; [exact I|]).
    + now rewrite (In_assoc _ _ _ _ K J).
    + apply assoc_None in J. rewrite J. now rewrite (In_assoc _ _ _ _ D L).
  - intros [I E]. split; [exact I|]. destruct (assoc kw n) as [w|] eqn:A.
    + subst. left. now apply assoc_In.
    + right. apply assoc_None in A. split; [exact A|]. destruct (assoc (parameters c) n) as [[w|]|] eqn:B.
      * subst. now apply assoc_In.
      * exfalso. apply A, H2. now apply assoc_In.
      * apply assoc_None in B. contradiction.
Qed.

(** A constructor that keeps its arguments; one that loses a name. *)
Definition faithful (c : cls) : Prop :=
  is_estimator c = true /\ NoDup (map fst (parameters c)) /\
  forall a l, init c a = Ok l -> forall n, In n (map fst (parameters c)) -> assoc l n = Some (a n).
Definition silent (c : cls) : Prop :=
  is_estimator c = true /\ exists n, In n (map fst (parameters c)) /\ forall a l, init c a = Ok l -> assoc l n = None.

Lemma faithful_reports : forall c kw o, faithful c -> call kw -> construct c kw = Ok o -> reports o (takes c kw).
Proof.
  intros c kw o (E & D & F) K H. pose proof H as H0. apply construct_ok in H. destruct H as (H1 & H2 & a & H3 & ->).
  destruct (get_params_ok {| class_of := c; attributes := a |}) as (l & G & _ & L).
  - cbn. intros n I. eexists. now apply F with (1 := H3).
  - exists l. split; [exact G|]. intros n v. rewrite L. cbn [class_of attributes]. rewrite (bound_takes _ _ _ _ _ D K H0).
    split; intros [I X]; (split; [exact I|]); rewrite (F _ _ H3 _ I) in *; congruence.
Qed.
Lemma silent_fails : forall c kw o, silent c -> construct c kw = Ok o ->
  get_params o = Err AttributeError /\ (forall copy, clone copy o = Err AttributeError) /\ (forall n v r, set_params o ((n, v) :: r) = (o, Some AttributeError)).
Proof.
  intros c kw o (E & n & I & F) H. apply construct_ok in H. destruct H as (H1 & H2 & a & H3 & ->).
  assert (G : get_params {| class_of := c; attributes := a |} = Err AttributeError) by (apply get_params_err with n; [exact I|exact (F _ _ H3)]).
  split; [exact G|]. split.
  - intros copy. unfold clone. cbn [class_of]. rewrite E. cbn [negb raise_if bind]. now rewrite G.
  - intros m v r. unfold set_params. now rewrite G.
Qed.

Lemma same_value_refl : forall v, same_value v v = true.
Proof.
  destruct v as [z|[q| | |]|b|s| |a]; cbn; auto using Z.eqb_refl, Nat.eqb_refl, String.eqb_refl, Bool.eqb_reflx. apply Qeq_bool_iff. reflexivity.
Qed.

Lemma NoDup_param_names : forall c, NoDup (map fst (parameters c)) -> NoDup (param_names c).
Proof. intros c. apply Permutation_NoDup. symmetry. apply param_names_perm. Qed.

Lemma faithful_clone : forall c copy kw o, faithful c -> call kw -> construct c kw = Ok o ->
  (forall a a' l, init c a = Ok l -> (forall n, In n (map fst (parameters c)) -> a' n = copy (a n)) -> exists l', init c a' = Ok l') ->
  exists o', clone copy o = Ok o' /\ class_of o' = c /\ reports o' (fun n v => exists w, takes c kw n w /\ v = copy w).
Proof.
  intros c copy kw o (E & D & F) K H S. pose proof H as H0. apply construct_ok in H. destruct H as (H1 & H2 & a & H3 & ->).
  set (o := {| class_of := c; attributes := a |}) in *.
  destruct (get_params_ok o) as (l & G & N & L).
  { cbn. intros n I. eexists. now apply F with (1 := H3). }
  set (copies := map (fun p => (fst p, copy (snd p))) l).
  assert (Nc : map fst copies = param_names c) by (unfold copies; rewrite map_map; cbn; exact N).
  assert (B : forall n, In n (map fst (parameters c)) -> bound c copies n = copy (bound c kw n)).
  { intros n I. unfold bound at 1. rewrite (In_assoc _ copies n (copy (bound c kw n))); [reflexivity| |].
    - rewrite Nc. now apply NoDup_param_names.
    - unfold copies. apply in_map_iff. exists (n, bound c kw n). split; [reflexivity|]. apply L. split; [exact I|]. apply (F _ _ H3 _ I). }
  destruct (S _ _ _ H3 B) as (l' & H4).
  assert (C : construct c copies = Ok {| class_of := c; attributes := l' |}).
  { apply construct_intro; [| |exact H4].
    - rewrite Nc. intros n. apply param_names_In.
    - intros n I. rewrite Nc. apply param_names_In. apply in_map_iff. now exists (n, None). }
  destruct (get_params_ok {| class_of := c; attributes := l' |}) as (m & G' & N' & L').
  { cbn. intros n I. eexists. now apply F with (1 := H4). }
  exists {| class_of := c; attributes := l' |}. split; [|split; [reflexivity|]].
  - unfold clone. cbn [class_of o]. rewrite E. cbn [negb raise_if bind]. fold o. rewrite G. cbn [bind]. fold copies. rewrite C. cbn [bind]. rewrite G'. cbn [bind].
    replace (forallb _ copies) with true; [reflexivity|]. symmetry. apply forallb_forall. intros [n v] I. cbn [fst snd].
    assert (In' : In n (map fst (parameters c))) by (apply param_names_In; rewrite <- Nc; apply in_map_iff; now exists (n, v)).
    assert (Ev : v = bound c copies n).
    { unfold bound. rewrite (In_assoc _ copies n v); [reflexivity|rewrite Nc; now apply NoDup_param_names|exact I]. }
    rewrite (In_assoc _ m n v); [apply same_value_refl|rewrite N'; now apply NoDup_param_names|].
    apply L'. split; [exact In'|]. cbn. rewrite (F _ _ H4 _ In'). congruence.
  - exists m. split; [exact G'|]. intros n v. rewrite L'. cbn [class_of attributes]. split.
    + intros [I X]. rewrite (F _ _ H4 _ I), (B _ I) in X. injection X as <-. exists (bound c kw n). split; [|reflexivity].
      apply (bound_takes _ _ _ _ _ D K H0). auto.
    + intros (w & T & ->). apply (bound_takes _ _ _ _ _ D K H0) in T. destruct T as [I <-]. split; [exact I|]. now rewrite (F _ _ H4 _ I), (B _ I).
Qed.

(** set_params. *)
Definition settled (o : obj) : Prop := forall n, In n (map fst (parameters (class_of o))) -> exists v, assoc (attributes o) n = Some v.
Lemma faithful_settled : forall c kw o, faithful c -> construct c kw = Ok o -> class_of o = c /\ settled o.
Proof.
  intros c kw o (E & D & F) H. apply construct_ok in H. destruct H as (H1 & H2 & a & H3 & ->). split; [reflexivity|]. intros n I. cbn in *. eexists. now apply F with (1 := H3).
Qed.
Lemma set_each_known : forall valid kw o, (forall n, In n (map fst kw) -> In n valid) -> NoDup (map fst kw) ->
  exists o', set_each valid o kw = (o', None) /\ class_of o' = class_of o /\
    forall n, assoc (attributes o') n = match assoc kw n with Some v => Some v | None => assoc (attributes o) n end.
Proof.
  intros valid. induction kw as [|[m w] r IH]; intros o H D; [exists o; auto|]. cbn [set_each].
  replace (existsb (String.eqb m) valid) with true; [|symmetry; apply existsb_exists; exists m; split; [apply H; now left|apply String.eqb_refl]].
  inversion D as [|? ? D1 D2]; subst. destruct (IH (setattr o m w)) as (o' & E & C & A); [intros n I; apply H; now right|exact D2|].
  exists o'. split; [exact E|]. split; [exact C|]. intros n. rewrite A. cbn. destruct (String.eqb_spec m n) as [->|Ne]; [|reflexivity].
  replace (assoc r n) with (@None value); [reflexivity|]. symmetry. now apply assoc_None.
Qed.
Lemma settled_set : forall c kw o new, faithful c -> call kw -> construct c kw = Ok o -> call new -> (forall n, In n (map fst new) -> In n (map fst (parameters c))) ->
  exists o', set_params o new = (o', None) /\ class_of o' = c /\
    (forall n, assoc (attributes o') n = match assoc new n with Some v => Some v | None => assoc (attributes o) n end) /\
    reports o' (fun n v => In (n, v) new \/ (~ In n (map fst new) /\ takes c kw n v)).
Proof.
  intros c kw o new Fc K H Kn I. destruct (faithful_settled _ _ _ Fc H) as (Ec & S).
  destruct (get_params_ok o S) as (l & G & N & L). rewrite Ec in N, L.
  assert (X : exists o', set_params o new = (o', None) /\ class_of o' = class_of o /\ forall n, assoc (attributes o') n = match assoc new n with Some v => Some v | None => assoc (attributes o) n end).
  { destruct new as [|[m w] r]; [exists o; auto|]. unfold set_params. rewrite G. apply set_each_known; [|exact Kn].
    intros n J. unfold names. rewrite N. apply param_names_In. now apply I. }
  destruct X as (o' & E & C & A). exists o'. split; [exact E|]. split; [congruence|]. split; [exact A|].
  destruct (get_params_ok o') as (l' & G' & _ & L').
  { rewrite C. intros n J. rewrite A. destruct (assoc new n); [eauto|]. apply S, J. }
  exists l'. split; [exact G'|]. intros n v. rewrite L', C, Ec, A. destruct Fc as (_ & D & F). pose proof H as H0.
  apply construct_ok in H0. destruct H0 as (_ & _ & a & H3 & Eo). split.
  - intros [J X]. destruct (assoc new n) as [w|] eqn:B.
    + left. injection X as <-. now apply assoc_In.
    + right. apply assoc_None in B. split; [exact B|]. apply (bound_takes _ _ _ _ _ D K H). split; [exact J|].
      rewrite Eo in X. cbn in X. rewrite (F _ _ H3 _ J) in X. congruence.
  - intros [J|[J T]].
    + split; [apply I, in_map_iff; now exists (n, v)|]. now rewrite (In_assoc _ _ _ _ Kn J).
    + apply (bound_takes _ _ _ _ _ D K H) in T. destruct T as [J' <-]. split; [exact J'|]. apply assoc_None in J. rewrite J, Eo. cbn. apply (F _ _ H3 _ J').
Qed.
Lemma unknown_name : forall c kw o n v r, faithful c -> construct c kw = Ok o -> ~ In n (map fst (parameters c)) -> set_params o ((n, v) :: r) = (o, Some ValueError).
Proof.
  intros c kw o n v r Fc H I. destruct (faithful_settled _ _ _ Fc H) as (Ec & S). destruct (get_params_ok o S) as (l & G & N & L). rewrite Ec in N.
  unfold set_params. rewrite G. cbn [set_each]. replace (existsb (String.eqb n) (names l)) with false; [reflexivity|].
  symmetry. apply not_true_is_false. intros X. apply existsb_exists in X. destruct X as (m & J & X). apply String.eqb_eq in X. subst m.
  unfold names in J. rewrite N in J. apply param_names_In in J. contradiction.
Qed.
