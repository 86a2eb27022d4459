(** Parameters of estimators: defaults, order of the arguments, fixed attributes. *)
From Coq Require Import String Permutation QArith.
From Verif Require Import Prelude PreludeFacts Num Params_Model Params_Spec Params_Proofs Params_Proofs2.
Local Open Scope nat_scope.
Local Open Scope string_scope.

Definition pointwise (c : cls) : Prop := forall a b, (forall n, a n = b n) -> init c a = init c b.
Lemma construct_same c kw kw' : pointwise c ->
  (forall n, In n (map fst kw) -> ~ In n (map fst kw') -> In n (map fst (parameters c))) ->
  (forall n, In n (map fst kw') -> ~ In n (map fst kw) -> In n (map fst (parameters c))) ->
  (forall n, In (n, None) (parameters c) -> (In n (map fst kw) <-> In n (map fst kw'))) ->
  (forall n, bound c kw n = bound c kw' n) -> construct c kw = construct c kw'.
Proof.
  intros P A B C D. unfold construct.
  assert (U : forall k k' : list (string * value), (forall n, In n (map fst k) -> ~ In n (map fst k') -> In n (map fst (parameters c))) ->
    existsb (fun kv => negb (has_name (parameters c) (fst kv))) k = true -> existsb (fun kv => negb (has_name (parameters c) (fst kv))) k' = true).
  { intros k k' Hk H. apply existsb_exists in H. destruct H as ([n v] & I & H). cbn [fst] in H. apply negb_true_iff in H.
    apply existsb_exists. assert (J : In n (map fst k)) by (apply in_map_iff; now exists (n, v)).
    destruct (has_name k' n) eqn:E.
    - apply has_name_iff in E. apply in_map_iff in E. destruct E as ([m w] & X & E). cbn in X. subst. exists (n, w). split; [exact E|]. cbn [fst]. now rewrite H.
    - assert (X : ~ In n (map fst k')) by (rewrite <- has_name_iff; congruence). specialize (Hk n J X). apply has_name_iff in Hk. congruence. }
  replace (existsb (fun kv => negb (has_name (parameters c) (fst kv))) kw) with (existsb (fun kv => negb (has_name (parameters c) (fst kv))) kw').
  2: { apply eq_true_iff_eq. split; apply U; assumption. }
  destruct (existsb _ kw'); [reflexivity|]. cbn [raise_if bind].
  replace (existsb (fun p => match snd p with None => negb (has_name kw (fst p)) | Some _ => false end) (parameters c))
    with (existsb (fun p => match snd p with None => negb (has_name kw' (fst p)) | Some _ => false end) (parameters c)).
  2: { apply eq_true_iff_eq. rewrite !existsb_exists. split; intros ([n [v|]] & I & H); try discriminate; exists (n, None); (split; [exact I|]); cbn [fst snd] in *;
       apply negb_true_iff in H; apply negb_true_iff; apply not_true_iff_false; intros X; apply has_name_iff in X; apply (C n I) in X; apply has_name_iff in X; congruence. }
  destruct (existsb _ (parameters c)); [reflexivity|]. cbn [raise_if bind]. now rewrite (P _ _ D).
Qed.
Lemma assoc_app : forall V (l r : list (string * V)) n, assoc (l ++ r)%list n = match assoc l n with Some v => Some v | None => assoc r n end.
Proof. induction l as [|[k v] l IH]; intros r n; [reflexivity|]. cbn. destruct (String.eqb k n); auto. Qed.
Lemma construct_default c kw n v : NoDup (map fst (parameters c)) -> pointwise c -> In (n, Some v) (parameters c) -> ~ In n (map fst kw) ->
  construct c kw = construct c (kw ++ [(n, v)])%list.
Proof.
  intros D P I N. apply construct_same; [exact P|..].
  - intros m J X. exfalso. apply X. rewrite map_app, in_app_iff. now left.
  - intros m J X. rewrite map_app, in_app_iff in J. destruct J as [J|[<-|[]]]; [contradiction|]. cbn. apply in_map_iff. now exists (n, Some v).
  - intros m J. rewrite map_app, in_app_iff. cbn. split; [auto|]. intros [X|[<-|[]]]; [exact X|]. exfalso.
    apply (In_assoc _ _ _ _ D) in I. apply (In_assoc _ _ _ _ D) in J. congruence.
  - intros m. unfold bound. rewrite assoc_app. destruct (assoc kw m) eqn:E; [reflexivity|]. cbn. destruct (String.eqb_spec n m); [|reflexivity].
    subst. now rewrite (In_assoc _ _ _ _ D I).
Qed.
Lemma construct_order c kw kw' : pointwise c -> call kw -> Permutation kw kw' -> construct c kw = construct c kw'.
Proof.
  intros P K H. assert (Q := Permutation_map fst H). assert (K' : call kw') by (unfold call in *; now rewrite <- Q).
  apply construct_same; [exact P|..].
  - intros n I X. exfalso. apply X. now rewrite <- Q.
  - intros n I X. exfalso. apply X. now rewrite Q.
  - intros n _. now rewrite Q.
  - intros n. unfold bound. replace (assoc kw' n) with (assoc kw n); [reflexivity|]. destruct (assoc kw n) as [v|] eqn:E.
    + symmetry. apply In_assoc; [exact K'|]. rewrite <- H. now apply assoc_In.
    + symmetry. apply assoc_None. rewrite <- Q. now apply assoc_None.
Qed.
Lemma construct_required c kw n : In (n, None) (parameters c) -> ~ In n (map fst kw) -> construct c kw = Err TypeError.
Proof.
  intros I N. unfold construct. destruct (existsb _ kw); [reflexivity|]. cbn [raise_if bind]. replace (existsb _ (parameters c)) with true; [reflexivity|].
  symmetry. apply existsb_exists. exists (n, None). split; [exact I|]. cbn. apply negb_true_iff. apply not_true_iff_false. now rewrite has_name_iff.
Qed.

Section Classes.
  Variable ind : value -> value -> value -> result value.
  Variable mapping : value -> value -> result value.
  Variable ta : string -> value -> list (string * value) -> result value.
  Ltac each H := repeat (destruct H as [H|H]; [injection H as <- <-|]); [..|contradiction].
  Lemma all_pointwise c l : In (c, l) (documented_defaults ind mapping ta) -> pointwise c.
  Proof.
    intros H. cbv delta [documented_defaults] beta in H. cbn [In] in H. each H; intros a b E; unfold init; cbv beta iota delta -[raise_if bind less truth existsb app]; rewrite ?E; reflexivity.
  Qed.
  Definition optional (c : cls) : list (string * value) := flat_map (fun p => match snd p with Some v => [(fst p, v)] | None => [] end) (parameters c).
  Lemma optional_In c n v : In (n, Some v) (parameters c) <-> In (n, v) (optional c).
  Proof.
    unfold optional. rewrite in_flat_map. split.
    - intros I. exists (n, Some v). split; [exact I|now left].
    - intros ([m [w|]] & I & J); [|contradiction]. destruct J as [J|[]]. cbn in J. injection J as <- <-. exact I.
  Qed.
  Lemma table c l : In (c, l) (documented_defaults ind mapping ta) -> NoDup (map fst (parameters c)) /\ optional c = l.
  Proof.
    intros H. cbv delta [documented_defaults] beta in H. cbn [In] in H. each H; (split; [distinct|reflexivity]).
  Qed.
  Lemma left_out c l kw n v : In (c, l) (documented_defaults ind mapping ta) -> In (n, v) l -> ~ In n (map fst kw) ->
    construct c kw = construct c (kw ++ [(n, v)])%list.
  Proof.
    intros H I N. destruct (table _ _ H) as [D E]. apply construct_default; [exact D|exact (all_pointwise _ _ H)| |exact N].
    apply optional_In. now rewrite E.
  Qed.
  Lemma any_order c l kw kw' : In (c, l) (documented_defaults ind mapping ta) -> call kw -> Permutation kw kw' -> construct c kw = construct c kw'.
  Proof. intros H. apply construct_order, (all_pointwise _ _ H). Qed.
  Lemma needed c l kw n : In (c, l) (documented_defaults ind mapping ta) -> In n (map fst (parameters c)) -> ~ In n (map fst l) -> ~ In n (map fst kw) ->
    construct c kw = Err TypeError.
  Proof.
    intros H I N K. destruct (table _ _ H) as [D E]. apply construct_required with n; [|exact K]. apply in_map_iff in I. destruct I as ([m [v|]] & X & I); cbn in X; subst m; [|exact I].
    exfalso. apply N. apply optional_In in I. rewrite E in I. apply in_map_iff. now exists (n, v).
  Qed.
  Lemma fixed c n v kw o : In (c, n, v) (fixed_attributes ind mapping ta) -> construct c kw = Ok o -> getattr o n = Ok v.
  Proof.
    intros H K. apply construct_ok in K. destruct K as (_ & _ & a & K & ->). unfold getattr. cbn [attributes].
    destruct H as [H|[H|[H|[H|[]]]]]; injection H as <- <- <-; cbn [init BaggingClassifier MeanReversionStrategy BarArrivalRSIStrategy RSIConfirmation] in K.
    - destruct (ind _ _ _) as [m|]; [|discriminate]. cbn [bind] in K. destruct (mapping _ _) as [t|]; [|discriminate]. cbn [bind] in K. injection K as <-. reflexivity.
    - destruct (ta _ _ _) as [t|]; [|discriminate]. cbn [bind] in K. injection K as <-. reflexivity.
    - destruct (ta _ _ _) as [t|]; [|discriminate]. cbn [bind] in K. injection K as <-. reflexivity.
    - destruct (ta _ _ _) as [t|]; [|discriminate]. cbn [bind] in K. injection K as <-. reflexivity.
  Qed.
End Classes.
