(** Parameters of estimators: the classes. *)
From Coq Require Import String QArith.
From Verif Require Import Prelude PreludeFacts Num Params_Model Params_Spec Params_Proofs.
Local Open Scope nat_scope.
Local Open Scope string_scope.

Ltac distinct := repeat (constructor; [let X := fresh in cbn; intros X; repeat (destruct X as [X|X]; [discriminate X|]); exact X|]); constructor.
Ltac each I := cbn in I; repeat (destruct I as [I|I]; [subst|]); try contradiction.
Ltac built H := cbn in H; injection H as <-.
Ltac attribute := intros n I; each I; reflexivity.

Section Classes.
  Variables (ind : value -> value -> value -> result value) (mapping : value -> value -> result value).
  Variable ta : string -> value -> list (string * value) -> result value.

  Lemma keeping_faithful : forall c, In c (keeping ind mapping) -> faithful c.
  Proof.
    intros c I. cbn in I. repeat (destruct I as [<-|I]; [|]); try contradiction; (split; [reflexivity|]); (split; [distinct|]); intros a l H; cbn [init] in H; cbv zeta in H;
      try (injection H as <-; attribute).
    - cbn [init BuySellImbalance] in H. destruct (negb _); [discriminate|]. cbn [raise_if bind] in H. injection H as <-. attribute.
    - cbn [init TrendScannerLabeling] in H. destruct (less _ _) as [ok|e]; [|discriminate]. cbn [bind] in H. destruct (negb ok); [discriminate|]. cbn [raise_if bind] in H. injection H as <-. attribute.
    - cbn [init BaggingClassifier] in H. destruct (ind _ _ _) as [m|e]; [|discriminate]. cbn [bind] in H. destruct (mapping _ _) as [t|e]; [|discriminate]. cbn [bind] in H. injection H as <-. attribute.
  Qed.
  Lemma renaming_silent : forall c, In c (renaming ta) -> silent c.
  Proof.
    intros c I. cbn in I. repeat (destruct I as [<-|I]; [|]); try contradiction; (split; [reflexivity|]).
    - exists "event_end_time_column_name". split; [now left|]. intros a l H. injection H as <-. reflexivity.
    - exists "event_end_time_column_name". split; [now left|]. intros a l H. injection H as <-. reflexivity.
    - exists "minimum_decay_weight". split; [now left|]. intros a l H. injection H as <-. reflexivity.
    - exists "threshold". split; [now left|]. intros a l H. injection H as <-. reflexivity.
    - exists "num_expiration_bars". split; [now left|]. intros a l H. cbn [init TripleBarrierMethodLabeling] in H.
      destruct (_ && _); [discriminate|]. cbn [raise_if bind] in H. injection H as <-. reflexivity.
    - exists "fast". split; [now left|]. intros a l H. cbn [init MovingAverageCrossOver] in H. destruct (less _ _) as [w|e]; [|discriminate]. cbn [bind] in H.
      destruct w; [discriminate|]. cbn [raise_if bind] in H. injection H as <-. reflexivity.
    - exists "fast_period". split; [now left|]. intros a l H. cbn [init MACDHistogramCrossOver] in H. destruct (less _ _) as [w|e]; [|discriminate]. cbn [bind] in H.
      destruct w; [discriminate|]. cbn [raise_if bind] in H. destruct (ta _ _ _) as [t|e]; [|discriminate]. cbn [bind] in H. injection H as <-. reflexivity.
    - exists "num_classes". split; [now left|]. intros a l H. cbn [init BetSizingFromProbabilities] in H.
      match type of H with bind ?x _ = _ => destruct x as [[]|e]; [|discriminate] end. cbn [bind] in H. injection H as <-. reflexivity.
  Qed.

  (** Copies are as good as the values. *)
  Lemma number_copy copy v : copying copy -> number (copy v) = number v.
  Proof. intros H. specialize (H v). destruct v; try (now rewrite H). destruct H as (b & ->). reflexivity. Qed.
  Lemma less_copy copy v w : copying copy -> less (copy v) (copy w) = less v w.
  Proof.
    intros H. unfold less. rewrite !number_copy by exact H. pose proof (H v) as Hv. pose proof (H w) as Hw.
    destruct (number v), (number w); try reflexivity; destruct v; try (rewrite Hv); try reflexivity; destruct w; try (rewrite Hw); try reflexivity;
      repeat match goal with X : exists _, _ |- _ => destruct X as (? & X); rewrite X end; reflexivity.
  Qed.
  Lemma keeping_copies copy : copying copy ->
    (forall s p e m t, ind s p e = Ok m -> mapping s m = Ok t -> exists m' t', ind (copy s) (copy p) (copy e) = Ok m' /\ mapping (copy s) m' = Ok t') ->
    forall c, In c (keeping ind mapping) -> forall a a' l, init c a = Ok l -> (forall n, In n (map fst (parameters c)) -> a' n = copy (a n)) -> exists l', init c a' = Ok l'.
  Proof.
    intros Hc Hi c I. cbn in I. repeat (destruct I as [<-|I]; [|]); try contradiction; intros a a' l H E; try (eexists; reflexivity); cbn [init] in H.
    - cbn [init BuySellImbalance] in *. rewrite (E "volume_type") by (cbn; auto).
      replace (existsb (same_value (copy (a "volume_type"))) [VStr "quote"; VStr "base"]) with (existsb (same_value (a "volume_type")) [VStr "quote"; VStr "base"]).
      2:{ pose proof (Hc (a "volume_type")) as V. destruct (a "volume_type"); try (now rewrite V). destruct V as (b & ->). reflexivity. }
      destruct (negb _); [discriminate|]. cbn [raise_if bind]. eexists. reflexivity.
    - cbn [init TrendScannerLabeling] in *. rewrite (E "min_sample_length"), (E "look_forward_window") by (cbn; auto). rewrite less_copy by exact Hc.
      destruct (less _ _) as [ok|e]; [|discriminate]. cbn [bind] in *. destruct (negb ok); [discriminate|]. cbn [raise_if bind]. eexists. reflexivity.
    - cbn [init BaggingClassifier] in *. rewrite (E "samples_info_sets"), (E "price_bars"), (E "event_end_time_column_name") by (cbn; auto 20).
      destruct (ind _ _ _) as [m|e] eqn:I1; [|discriminate]. cbn [bind] in H. destruct (mapping _ m) as [t|e] eqn:M1; [|discriminate].
      destruct (Hi _ _ _ _ _ I1 M1) as (m' & t' & -> & M'). cbn [bind]. rewrite M'. cbn [bind]. eexists. reflexivity.
  Qed.
End Classes.

(** ** set_params and the constructor *)
Definition nothing_else (c : cls) : Prop := forall a l, init c a = Ok l -> forall n, assoc l n <> None -> In n (map fst (parameters c)).
Lemma assoc_names V (l : list (string * V)) n : assoc l n <> None -> In n (map fst l).
Proof. intros H. destruct (in_dec string_dec n (map fst l)) as [I|I]; [exact I|]. apply assoc_None in I. contradiction. Qed.
Lemma plain_facts ind mapping : forall c, In c (plain ++ checking)%list -> In c (keeping ind mapping) /\ nothing_else c.
Proof.
  intros c I. cbn in I. repeat (destruct I as [<-|I]; [|]); try contradiction; (split; [cbn; auto 20|]); intros a l H.
  1-12: injection H as <-; intros n N; apply assoc_names in N; exact N.
  - cbn [init BuySellImbalance] in H. destruct (negb _); [discriminate|]. cbn [raise_if bind] in H. injection H as <-. intros n N. apply assoc_names in N. exact N.
  - cbn [init TrendScannerLabeling] in H. destruct (less _ _) as [ok|e]; [|discriminate]. cbn [bind] in H. destruct (negb ok); [discriminate|]. cbn [raise_if bind] in H.
    injection H as <-. intros n N. apply assoc_names in N. exact N.
Qed.
Lemma plain_total c a : In c plain -> exists l, init c a = Ok l.
Proof. intros I. cbn in I. repeat (destruct I as [<-|I]; [|]); try contradiction; eexists; reflexivity. Qed.

Lemma set_same c kw o new kw' o' fresh : In c (plain ++ checking)%list -> call kw -> construct c kw = Ok o -> call new ->
  set_params o new = (o', None) -> call kw' -> construct c kw' = Ok fresh -> (forall n v, takes c kw' n v <-> after_setting c kw new n v) ->
  (forall n, In n (map fst new) -> In n (map fst (parameters c))) -> same_object o' fresh.
Proof.
  intros I K H Kn S K' H' T N. destruct (plain_facts (fun _ _ _ => Err ValueError) (fun _ _ => Err ValueError) c I) as [Ik Ne].
  pose proof (keeping_faithful _ _ c Ik) as F. destruct (settled_set c kw o new F K H Kn N) as (o1 & S1 & C1 & A1 & _).
  rewrite S in S1. injection S1 as <-. destruct F as (_ & D & F).
  pose proof (construct_ok _ _ _ H) as (_ & _ & a & Ha & Eo). pose proof (construct_ok _ _ _ H') as (_ & _ & a' & Ha' & Ef).
  split; [rewrite C1, Ef; reflexivity|]. intros n. unfold getattr. rewrite A1. rewrite Ef, Eo. cbn [attributes].
  destruct (in_dec string_dec n (map fst (parameters c))) as [J|J].
  - rewrite (F _ _ Ha' _ J), (F _ _ Ha _ J). assert (V : takes c kw' n (bound c kw' n)) by (apply (bound_takes _ _ _ _ _ D K' H'); auto).
    apply T in V. destruct V as [V|[V1 V2]].
    + now rewrite (In_assoc _ _ _ _ Kn V).
    + apply assoc_None in V1. rewrite V1. apply (bound_takes _ _ _ _ _ D K H) in V2. destruct V2 as [_ V2]. now rewrite V2.
  - replace (assoc a' n) with (@None value); [|destruct (assoc a' n) eqn:X; [|reflexivity]; exfalso; apply J, (Ne _ _ Ha'); congruence].
    replace (assoc a n) with (@None value); [|destruct (assoc a n) eqn:X; [|reflexivity]; exfalso; apply J, (Ne _ _ Ha); congruence].
    replace (assoc new n) with (@None value); [reflexivity|]. symmetry. apply assoc_None. intros X. apply J, N, X.
Qed.
Lemma NoDup_both A (l l' : list A) : NoDup l -> NoDup l' -> (forall x, In x l -> ~ In x l') -> NoDup (l ++ l')%list.
Proof.
  induction l as [|x r IH]; intros H H' D; [exact H'|]. inversion H; subst. cbn. constructor; [|apply IH; auto; intros y Y; apply D; now right].
  rewrite in_app_iff. intros [X|X]; [contradiction|]. apply (D x); [now left|exact X].
Qed.
Lemma NoDup_filter_names V f (l : list (string * V)) : NoDup (map fst l) -> NoDup (map fst (filter f l)).
Proof.
  induction l as [|[k v] r IH]; intros K; [constructor|]. inversion K as [|? ? K1 K2]; subst. cbn [filter]. destruct (f (k, v)); [|now apply IH].
  cbn [map fst]. constructor; [|now apply IH]. intros X. apply in_map_iff in X. destruct X as ([k' v'] & E & X). cbn in E. subst. apply filter_In in X.
  apply K1, in_map_iff. exists (k, v'). split; [reflexivity|apply X].
Qed.
Lemma plain_fresh c kw o new : In c plain -> call kw -> construct c kw = Ok o -> call new ->
  (forall n, In n (map fst new) -> In n (map fst (parameters c))) ->
  exists kw' fresh, call kw' /\ construct c kw' = Ok fresh /\ (forall n v, takes c kw' n v <-> after_setting c kw new n v).
Proof.
  intros I K H Kn N. pose proof (construct_ok _ _ _ H) as (H1 & H2 & _).
  assert (I' : In c (plain ++ checking)%list) by (apply in_or_app; now left).
  destruct (plain_facts (fun _ _ _ => Err ValueError) (fun _ _ => Err ValueError) c I') as [Ik _].
  pose proof (keeping_faithful _ _ c Ik) as (_ & D & _).
  set (old := filter (fun kv => negb (has_name new (fst kv))) kw).
  assert (Old : forall n v, In (n, v) old <-> In (n, v) kw /\ ~ In n (map fst new)).
  { intros n v. unfold old. rewrite filter_In. cbn [fst]. rewrite negb_true_iff, <- not_true_iff_false, has_name_iff. tauto. }
  assert (OldN : forall n, In n (map fst old) <-> In n (map fst kw) /\ ~ In n (map fst new)).
  { intros n. rewrite !in_map_iff. split.
    - intros ([k v] & E & X). cbn in E. subst. apply Old in X. destruct X. split; [now exists (n, v)|]. rewrite <- in_map_iff. assumption.
    - intros (([k v] & E & X) & Y). cbn in E. subst. exists (n, v). split; [reflexivity|]. apply Old. rewrite <- in_map_iff in Y. auto. }
  assert (Kw : call (new ++ old)%list).
  { unfold call. rewrite map_app. apply NoDup_both; [exact Kn| |intros n X Y; apply OldN in Y; now apply Y]. apply NoDup_filter_names, K. }
  assert (Nw : forall n, In n (map fst (new ++ old)%list) <-> In n (map fst new) \/ In n (map fst kw)).
  { intros n. rewrite map_app, in_app_iff, OldN. destruct (in_dec string_dec n (map fst new)); tauto. }
  destruct (plain_total c (bound c (new ++ old)%list) I) as (l & L). exists (new ++ old)%list. eexists. split; [exact Kw|]. split.
  - apply construct_intro; [intros n X; apply Nw in X; destruct X; auto|intros n X; apply Nw; right; auto|exact L].
  - intros n v. unfold takes, after_setting. rewrite in_app_iff, Old, Nw. unfold takes. split.
    + intros [J [[X|[X Y]]|[X Y]]]; [now left|right|right]; tauto.
    + intros [X|[X [J [Y|[Y Z]]]]]; [|tauto|tauto]. split; [apply N, in_map_iff; now exists (n, v)|]. tauto.
Qed.

(** ** Arguments and what the methods read *)
Section Used.
  Variable ta : string -> value -> list (string * value) -> result value.
  Ltac opened H :=
    cbn [init AverageUniqueness SampleWeightsByReturns SampleWeightsByTimeDecay CUSUMFilter TripleBarrierMethodLabeling MovingAverageCrossOver
         ExponentialWeightedMovingAverageDifference BetSizingFromProbabilities MeanReversionStrategy BarArrivalRSIStrategy RSIConfirmation MACDHistogramCrossOver] in H;
    repeat match type of H with
    | bind ?x _ = _ => let E := fresh "E" in destruct x eqn:E; [|discriminate H]; cbn [bind] in H
    end; injection H as <-.
  Lemma used_stores : forall c l, In (c, l) (used ta) -> NoDup (map fst (parameters c)) /\
    forall attr p, In (attr, p) l -> In p (map fst (parameters c)) /\ forall a at', init c a = Ok at' -> assoc at' attr = Some (a p).
  Proof.
    intros c l I. cbn [In used] in I. repeat (destruct I as [E|I]; [injection E as <- <-|]); try contradiction; (split; [distinct|]); intros attr p J; cbn [In] in J;
      repeat (destruct J as [E|J]; [injection E as <- <-; split; [cbn; auto 20|intros a at' H; opened H; reflexivity]|]); contradiction.
  Qed.
  Lemma used_read : forall c l attr p kw o v, In (c, l) (used ta) -> In (attr, p) l -> call kw -> construct c kw = Ok o -> takes c kw p v -> getattr o attr = Ok v.
  Proof.
    intros c l attr p kw o v I J K H T. destruct (used_stores c l I) as (D & S). destruct (S _ _ J) as (P & A).
    apply (bound_takes _ _ _ _ _ D K H) in T. destruct T as [_ <-]. apply construct_ok in H. destruct H as (_ & _ & a & Ha & ->).
    unfold getattr. cbn [attributes]. now rewrite (A _ _ Ha).
  Qed.
  Lemma indicators_store : forall c attr name col settings, In (c, (attr, name, col, settings)) (indicators ta) -> NoDup (map fst (parameters c)) /\
    match col with Given_by n => In n (map fst (parameters c)) | Fixed _ => True end /\ (forall s p, In (s, p) settings -> In p (map fst (parameters c))) /\ NoDup (map fst settings) /\
    forall a at', init c a = Ok at' -> exists t, assoc at' attr = Some t /\
      ta name (match col with Given_by n => a n | Fixed s => VStr s end) (map (fun sp => (fst sp, a (snd sp))) settings) = Ok t.
  Proof.
    intros c attr name col settings I. cbn [In indicators] in I.
    repeat (destruct I as [E|I]; [injection E as <- <- <- <- <-|]); try contradiction; (split; [distinct|]); (split; [cbn; auto 20|]);
      (split; [intros s p J; cbn [In] in J; repeat (destruct J as [E|J]; [injection E as <- <-; cbn; auto 20|]); contradiction|]); (split; [distinct|]);
      intros a at' H; opened H; eexists; (split; [reflexivity|assumption]).
  Qed.
  Lemma indicators_built : forall c attr name col settings kw o, In (c, (attr, name, col, settings)) (indicators ta) -> call kw -> construct c kw = Ok o ->
    exists t v args, getattr o attr = Ok t /\ ta name v args = Ok t /\ is_column c kw col v /\ map fst args = map fst settings /\
      forall s p w, In (s, p) settings -> (takes c kw p w <-> In (s, w) args).
  Proof.
    intros c attr name col settings kw o I K H. destruct (indicators_store _ _ _ _ _ I) as (D & C & P & S & A).
    pose proof H as H0. apply construct_ok in H0. destruct H0 as (_ & _ & a & Ha & ->). destruct (A _ _ Ha) as (t & T1 & T2).
    eexists t, _, _. split; [unfold getattr; cbn [attributes]; now rewrite T1|]. split; [exact T2|]. split.
    - destruct col as [n|s]; cbn [is_column]; [|reflexivity]. apply (bound_takes _ _ _ _ _ D K H). auto.
    - split; [rewrite map_map; reflexivity|]. intros s p w J. rewrite (bound_takes _ _ _ _ _ D K H). split.
      + intros [_ <-]. apply in_map_iff. exists (s, p). auto.
      + intros X. split; [apply (P s), J|]. apply in_map_iff in X. destruct X as ([s' p'] & E & X). cbn [fst snd] in E. injection E as -> <-.
        assert (p = p'); [|now subst]. clear -J X S. induction settings as [|[s0 p0] r IH]; [contradiction|]. cbn in S. inversion S as [|? ? S1 S2]; subst.
        destruct J as [J|J]; destruct X as [X|X].
        * congruence.
        * exfalso. apply S1, in_map_iff. exists (s, p'). split; [cbn; congruence|exact X].
        * exfalso. apply S1, in_map_iff. exists (s, p). split; [cbn; congruence|exact J].
        * now apply IH.
  Qed.
End Used.
