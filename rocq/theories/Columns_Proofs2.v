(** Which columns the TA-Lib transformers and the labelling read. *)
From Coq Require Import Reals String QArith.
From Verif Require Import Prelude PreludeFacts Num Series Feat_Model TAFactory_Model Columns_Spec Columns_Proofs.
From Verif Require Label_Model Label_Proofs3.
Open Scope nat_scope.

Lemma transformed_missing V (f : ta_func V) args kw X n : In n args -> ~ has X n -> transformed V f args kw X = Err ValueError.
Proof.
  intros Hn Hx. unfold transformed. destruct (forallb (fun a => mem a (map fst (f_cols X))) args) eqn:E; [|reflexivity].
  exfalso. rewrite forallb_forall in E. specialize (E n Hn). unfold mem in E. apply existsb_exists in E as (m & Hm & He). apply String.eqb_eq in He as <-. contradiction.
Qed.
Lemma transformed_present V (f : ta_func V) args kw X : (forall n, In n args -> has X n) ->
  exists columns, Forall2 (fun n c => lookup n X = Some c) args columns /\ transformed V f args kw X = do out <- ta_run V f columns kw ;; Ok (rows_of out).
Proof.
  intros H. unfold transformed.
  assert (E : forallb (fun a => mem a (map fst (f_cols X))) args = true).
  { apply forallb_forall. intros a Ha. apply existsb_exists. exists a. split; [apply (H a Ha)|apply String.eqb_refl]. }
  rewrite E. cbn [negb raise_if bind]. clear E.
  assert (exists columns, Forall2 (fun n c => lookup n X = Some c) args columns /\ mapM (fun a => column a X) args = Ok columns) as (cs & H1 & H2).
  { induction args as [|a r IH]; [exists []; now split|]. destruct IH as (cs & H1 & H2); [intros n Hn; apply H; now right|].
    destruct (proj1 (has_lookup X a) (H a (or_introl eq_refl))) as (c & Hc). exists (c :: cs). split; [now constructor|]. cbn [mapM]. unfold column at 1. rewrite Hc. cbn [bind]. now rewrite H2. }
  exists cs. rewrite H2. now split.
Qed.
Lemma transformed_agree V (f : ta_func V) args kw X X' : agree_on args X X' -> transformed V f args kw X = transformed V f args kw X'.
Proof.
  intros (_ & H).
  assert (D : (forall n, In n args -> has X n) \/ exists n, In n args /\ ~ has X n).
  { clear H. induction args as [|a r IH]; [now left|]. destruct (lookup a X) as [c|] eqn:E.
    - destruct IH as [IH|(n & Hn & Hx)]; [left; intros n [<-|Hn]; [apply has_lookup; eauto|auto]|right; exists n; split; [now right|exact Hx]].
    - right. exists a. split; [now left|]. now apply hasnt_lookup. }
  destruct D as [D|(n & Hn & Hx)].
  - assert (D' : forall n, In n args -> has X' n) by (intros n Hn; rewrite has_lookup, <- (H n Hn); now apply has_lookup, D).
    destruct (transformed_present V f args kw X D) as (cs & H1 & ->). destruct (transformed_present V f args kw X' D') as (cs' & H1' & ->).
    replace cs' with cs; [reflexivity|]. clear D D'. revert cs' H1'. induction H1 as [|a c r cs Ha Hr IH]; intros cs' H1'; inversion H1'; subst; [reflexivity|]. f_equal.
    + rewrite (H a (or_introl eq_refl)) in Ha. congruence.
    + apply IH; [intros m Hm; apply H; now right|assumption].
  - rewrite (transformed_missing V f args kw X n Hn Hx). symmetry. apply (transformed_missing V f args kw X' n Hn). rewrite hasnt_lookup, <- (H n Hn). now apply hasnt_lookup.
Qed.

Section Label.
  Import Label_Model.
  Context {A} {HA : Arith A}.
  Lemma labels_agree daily_vol order (cfg : config A) (y y' : frame A) : f_index y = f_index y' -> column y (close_column cfg) = column y' (close_column cfg) ->
    column y (side_column cfg) = column y' (side_column cfg) -> column y "side" = column y' "side" -> transform daily_vol order cfg y = transform daily_vol order cfg y'.
  Proof. intros Hi Hc Hs Hd. unfold transform, SIDE. rewrite Hi, Hc, Hs, Hd. reflexivity. Qed.
  Lemma labels_ok daily_vol order (cfg : config A) (y y' : frame A) out : f_index y = f_index y' -> column y (close_column cfg) = column y' (close_column cfg) ->
    column y "side" = column y' "side" -> transform daily_vol order cfg y = Ok out -> transform daily_vol order cfg y' = Ok out.
  Proof.
    intros Hi Hc Hs H. destruct (String.eqb_spec (side_column cfg) "side") as [E|E].
    - rewrite <- H. symmetry. apply labels_agree; auto. now rewrite E.
    - destruct (Label_Proofs3.c30_side daily_vol order cfg y E) as (e & He). congruence.
  Qed.
End Label.
Lemma factory_reads V d name col m kw T : create_transformer V d name col m kw = Ok T -> exists f args kw',
  get_ta_func V d name = Ok f /\
  (forall X n, In n args -> ~ has X n -> T X = Err ValueError) /\
  (forall X, (forall n, In n args -> has X n) -> exists columns, Forall2 (fun n c => lookup n X = Some c) args columns /\ T X = do out <- ta_run V f columns kw' ;; Ok (rows_of out)) /\
  (forall X X', agree_on args X X' -> T X = T X').
Proof.
  unfold create_transformer. destruct (get_ta_func V d name) as [f|]; [|discriminate]. cbn [bind]. destruct (get_args_kwargs V d name) as [ak|]; [|discriminate]. cbn [bind].
  destruct (check_and_set_args (fst ak) col m) as [args|]; [|discriminate]. cbn [bind]. destruct (check_and_set_kwargs V kw (snd ak)) as [kw'|]; [|discriminate]. cbn [bind].
  intros [= <-]. exists f, args, kw'. split; [reflexivity|]. split; [intros X n; apply transformed_missing|]. split; [intros X; apply transformed_present|]. intros X X'. apply transformed_agree.
Qed.
