(** Proofs about the out-of-bag score: C51, C68. *)
From Verif Require Import PreludeFacts QSum QSumFacts Num Boot_Model Bag_Model Bag_Spec Bag_Proofs Bag_Proofs2 Bag_Proofs3 Bag_Proofs4.
From Coq Require Import Lqa.
Open Scope nat_scope.

Section Proofs.
  Context {num gen est0 model : Type}.
  Variables (np : numpy gen) (est : estimator num gen est0 model).
  Notation trained := (trained model).
  Notation fit := (fit num gen est0 model np est).


  (** [row'] is [row] plus [v], entry by entry. *)
  Definition plus_row (nc : nat) (row v row' : list Q) : Prop := length row' = nc /\ forall c, (nth c row' 0 == nth c row 0 + nth c v 0)%Q.

  Lemma add_row_spec nc row v row' : length row = nc -> length v = nc -> add_row row v = Ok row' -> plus_row nc row v row'.
  Proof.
    intros Hr Hv. unfold add_row. rewrite Hr, Hv, Nat.eqb_refl. intros [= <-]. split; [rewrite map_length, combine_length; lia|]. intros c.
    subst nc. revert v Hv c. induction row as [|a row IH]; intros [|b v]; cbn [length]; try discriminate; intros Hv c; [destruct c; cbn; lra|].
    cbn [combine map fst snd]. destruct c as [|c]; cbn [nth]; [reflexivity|]. apply IH. lia.
  Qed.
  Lemma add_row_ok nc row v : length row = nc -> length v = nc -> exists row', add_row row v = Ok row'.
  Proof. intros Hr Hv. unfold add_row. rewrite Hr, Hv, Nat.eqb_refl. eauto. Qed.

  (** One round, position by position. *)
  Lemma masked nc (val : list num -> list Q) features : (forall x, length (val x) = nc) ->
    forall X mask P Xf P', length mask = length X -> length P = length X -> Forall (fun r => length r = nc) P ->
    take_columns num (mask_sel X mask) features = Ok Xf -> add_masked P mask (map val Xf) = Ok P' ->
    length P' = length X /\ Forall (fun r => length r = nc) P' /\
    forall i x b row, nth_error X i = Some x -> nth_error mask i = Some b -> nth_error P i = Some row ->
      exists row', nth_error P' i = Some row' /\ if b then exists x', at_positions x features x' /\ plus_row nc row (val x') row' else row' = row.
  Proof.
    intros Hval. induction X as [|x X IH]; intros [|b mask] [|row P] Xf P'; cbn [length]; try discriminate; intros Hm HP HF Hc Ha.
    - cbn in Hc. injection Hc as <-. cbn in Ha. injection Ha as <-. split; [reflexivity|]. split; [constructor|]. intros [|i]; discriminate.
    - injection Hm as Hm. injection HP as HP. inversion HF as [|? ? Hrow HF']; subst. destruct b; cbn [mask_sel] in Hc.
      + unfold take_columns in Hc. cbn [mapM] in Hc. destruct (mapM (get x) features) as [x'|] eqn:Ex; [|discriminate]. cbn [bind] in Hc.
        destruct (mapM _ (mask_sel X mask)) as [Xf'|] eqn:EX; [|discriminate]. cbn [bind] in Hc. injection Hc as <-. cbn [map add_masked] in Ha.
        destruct (add_row row (val x')) as [row'|] eqn:Er; [|discriminate]. cbn [bind] in Ha. destruct (add_masked P mask (map val Xf')) as [P''|] eqn:EP; [|discriminate].
        cbn [bind] in Ha. injection Ha as <-. destruct (IH mask P Xf' P'' Hm HP HF' EX EP) as (Hl & HF'' & Hn).
        pose proof (add_row_spec _ row (val x') row' eq_refl (Hval x') Er) as Hpl.
        split; [cbn; now rewrite Hl|]. split; [constructor; [exact (proj1 Hpl)|exact HF'']|]. intros [|i] z b w; cbn [nth_error].
        * intros [= <-] [= <-] [= <-]. exists row'. split; [reflexivity|]. exists x'. split; [now apply take_rows_spec|exact Hpl].
        * apply Hn.
      + cbn [add_masked] in Ha. destruct (add_masked P mask (map val Xf)) as [P''|] eqn:EP; [|discriminate]. cbn [bind] in Ha. injection Ha as <-.
        destruct (IH mask P Xf P'' Hm HP HF' Hc EP) as (Hl & HF'' & Hn). split; [cbn; now rewrite Hl|]. split; [now constructor|]. intros [|i] z b w; cbn [nth_error].
        * intros [= <-] [= <-] [= <-]. exists row. now split.
        * apply Hn.
  Qed.
  Lemma add_masked_none P mask values P' : (forall b, In b mask -> b = false) -> add_masked P mask values = Ok P' -> values = [].
  Proof.
    revert mask P'. induction P as [|r P IH]; intros [|b mask] P' H; cbn [add_masked]; try discriminate.
    - destruct values; [reflexivity|discriminate].
    - rewrite (H b (or_introl eq_refl)). destruct (add_masked P mask values) as [x|] eqn:E; [|discriminate]. intros _. eapply IH; [|exact E]. intros c Hc. apply H. now right.
  Qed.
  Lemma mask_empty {A} (X : list A) mask : length mask = length X -> mask_sel X mask = [] -> forall b, In b mask -> b = false.
  Proof.
    revert X. induction mask as [|c mask IH]; intros [|x X]; cbn [length]; try discriminate; intros H E b Hb; [destruct Hb|]. injection H as H. cbn [mask_sel] in E.
    destruct c; [discriminate|]. destruct Hb as [<-|Hb]; [reflexivity|]. eauto.
  Qed.
  Lemma columns_nil features rows Xf : take_columns num rows features = Ok Xf -> (Xf = [] <-> rows = []).
  Proof.
    unfold take_columns. destruct rows as [|r rows]; cbn [mapM]; [intros [= <-]; tauto|]. destruct (mapM (get r) features); [|discriminate]. cbn [bind].
    destruct (mapM _ rows); [|discriminate]. cbn [bind]. intros [= <-]. split; discriminate.
  Qed.

  (** The row that an estimator adds for a sample it was not trained on. *)
  Definition casts (nc : nat) (val : model -> list num -> list Q) : Prop :=
    (forall m x, length (val m x) = nc) /\
    ((exists proba, predict_proba _ _ _ _ est = Some proba /\ forall m rows, rows <> [] -> proba m rows = Ok (map (val m) rows)) \/
     (exists f, predict_proba _ _ _ _ est = None /\ (forall m rows, rows <> [] -> predict _ _ _ _ est m rows = Ok (map (f m) rows)) /\ forall m x, val m x = vote nc (f m x))).
  Lemma round_spec nc val X P t P' : casts nc val -> length P = length X -> Forall (fun r => length r = nc) P -> oob_round _ _ _ _ est X nc P t = Ok P' ->
    length P' = length X /\ Forall (fun r => length r = nc) P' /\
    forall i x row, nth_error X i = Some x -> nth_error P i = Some row ->
      exists row', nth_error P' i = Some row' /\
        if existsb (Nat.eqb i) (t_samples _ t) then row' = row else exists x', at_positions x (t_features _ t) x' /\ plus_row nc row (val (t_model _ t) x') row'.
  Proof.
    intros [Hlen Hcast] HP HF. unfold oob_round. cbv zeta. set (mask := oob_mask (t_samples _ t) (length X)).
    assert (Hm : length mask = length X) by (unfold mask, oob_mask; now rewrite map_length, seq_length).
    unfold mask_select. rewrite Hm, Nat.eqb_refl. cbn [bind]. destruct (take_columns _ _ _) as [Xf|] eqn:Ec; cbn [bind]; [|discriminate]. intros E.
    assert (Ea : add_masked P mask (map (val (t_model _ t)) Xf) = Ok P').
    { destruct Xf as [|x0 Xf].
      - pose proof (proj1 (columns_nil _ _ _ Ec) eq_refl) as Hnil. pose proof (mask_empty _ _ Hm Hnil) as Hno. destruct Hcast as [(proba & Hp & _)|(f & Hp & _)]; rewrite Hp in E.
        + destruct (proba _ _) as [values|]; [|discriminate]. cbn [bind] in E. pose proof (add_masked_none _ _ _ _ Hno E) as ->. exact E.
        + destruct (predict _ _ _ _ est _ _) as [p|]; [|discriminate]. cbn [bind] in E. destruct (raise_if _ _); [|discriminate]. cbn [bind] in E.
          pose proof (add_masked_none _ _ _ _ Hno E) as Hv. rewrite Hv in E. exact E.
      - destruct Hcast as [(proba & Hp & Hrw)|(f & Hp & Hrw & Hvote)]; rewrite Hp, Hrw in E by discriminate; cbn [bind] in E.
        + exact E.
        + destruct (raise_if _ _); [|discriminate]. cbn [bind] in E. rewrite map_map in E. rewrite (map_ext _ (fun x => vote nc (f (t_model _ t) x))); [exact E|]. intros. apply Hvote. }
    destruct (masked nc (val (t_model _ t)) (t_features _ t) (Hlen _) X mask P Xf P' Hm HP HF Ec Ea) as (H1 & H2 & H3). split; [exact H1|]. split; [exact H2|].
    intros i x row Hx Hrow. assert (Hb : nth_error mask i = Some (negb (existsb (Nat.eqb i) (t_samples _ t)))).
    { unfold mask, oob_mask. rewrite nth_error_map. assert (Hi : i < length X) by (apply nth_error_Some; congruence).
      assert (Es : nth_error (seq 0 (length X)) i = Some i) by (apply nth_error_seq; lia). rewrite Es. reflexivity. }
    destruct (H3 i x _ row Hx Hb Hrow) as (row' & Hr' & Hif). exists row'. split; [exact Hr'|]. destruct (existsb _ _); exact Hif.
  Qed.
  Lemma rounds nc val X ts : casts nc val -> forall P P', length P = length X -> Forall (fun r => length r = nc) P -> foldM (oob_round _ _ _ _ est X nc) P ts = Ok P' ->
    length P' = length X /\ Forall (fun r => length r = nc) P' /\
    forall i x row, nth_error X i = Some x -> nth_error P i = Some row ->
      exists row' votes, nth_error P' i = Some row' /\ opinions val ts i x votes /\ forall c, (nth c row' 0 == nth c row 0 + qsum (map (fun v => nth c v 0) votes))%Q.
  Proof.
    intros Hc. induction ts as [|t ts IH]; intros P P' HP HF; cbn [foldM].
    - intros [= <-]. split; [exact HP|]. split; [exact HF|]. intros i x row _ Hr. exists row, []. split; [exact Hr|]. split; [constructor|]. intros c. cbn. lra.
    - destruct (oob_round _ _ _ _ est X nc P t) as [P1|] eqn:E1; cbn [bind]; [|discriminate]. intros E. destruct (round_spec nc val X P t P1 Hc HP HF E1) as (H1 & H2 & H3).
      destruct (IH P1 P' H1 H2 E) as (H4 & H5 & H6). split; [exact H4|]. split; [exact H5|]. intros i x row Hx Hrow. destruct (H3 i x row Hx Hrow) as (r1 & Hr1 & Hif).
      destruct (H6 i x r1 Hx Hr1) as (r2 & votes & Hr2 & Hop & Hsum). unfold opinions, unseen in *. cbn [filter]. destruct (existsb _ (t_samples _ t)); cbn [negb].
      + subst r1. exists r2, votes. auto.
      + destruct Hif as (x' & Hx' & _ & Hpl). exists r2, (val (t_model _ t) x' :: votes). split; [exact Hr2|]. split; [constructor; [now exists x'|exact Hop]|].
        intros c. cbn [map qsum fold_right]. fold (qsum (map (fun v => nth c v 0%Q) votes)). rewrite Hsum, Hpl. lra.
  Qed.

  (** ** The score *)
  Lemma qsum_nth l : (qsum l == qsum (map (fun c => nth c l 0) (seq 0 (length l))))%Q.
  Proof. induction l as [|x l IH]; [reflexivity|]. cbn [length seq map]. rewrite !qsum_cons, <- seq_shift, map_map. cbn [nth]. now rewrite IH. Qed.
  Lemma qsum_swap {A B} (f : A -> B -> Q) l k : (qsum (map (fun a => qsum (map (f a) k)) l) == qsum (map (fun b => qsum (map (fun a => f a b) l)) k))%Q.
  Proof.
    induction l as [|a l IH]; cbn [map].
    - rewrite (qsum_map_ext _ (fun _ => 0%Q)) by reflexivity. rewrite qsum_map_const. change (qsum []) with 0%Q. lra.
    - rewrite qsum_cons, IH, <- qsum_map_plus. reflexivity.
  Qed.
  Lemma total nc row votes : length row = nc -> (forall v, In v votes -> length v = nc /\ qsum v == 1)%Q ->
    (forall c, nth c row 0 == qsum (map (fun v => nth c v 0) votes))%Q -> (qsum row == Qn (length votes))%Q.
  Proof.
    intros Hl Hv Hs. rewrite qsum_nth, Hl. rewrite (qsum_map_ext _ (fun c => qsum (map (fun v => nth c v 0%Q) votes))) by (intros; apply Hs).
    rewrite qsum_swap. rewrite (qsum_map_ext _ (fun _ => 1%Q)); [rewrite qsum_map_const; lra|]. intros v Hin. destruct (Hv v Hin) as [H1 H2]. rewrite <- H2, (qsum_nth v), H1. reflexivity.
  Qed.
  Lemma vote_spec nc p c : nth c (vote nc p) 0%Q = if (c <? nc) && (c =? p) then 1%Q else 0%Q.
  Proof.
    unfold vote. destruct (Nat.ltb_spec c nc) as [H|H].
    - erewrite nth_indep by (rewrite map_length, seq_length; lia). rewrite (map_nth (fun c => if c =? p then 1%Q else 0%Q) (seq 0 nc) 0 c), seq_nth by lia. reflexivity.
    - rewrite nth_overflow; [reflexivity|]. rewrite map_length, seq_length. lia.
  Qed.
  Lemma vote_sum nc p : p < nc -> (qsum (vote nc p) == 1)%Q.
  Proof.
    intros H. unfold vote. assert (E : forall k s, s <= p < s + k -> (qsum (map (fun c => if c =? p then 1 else 0) (seq s k)) == 1)%Q).
    { assert (Z0 : forall k s, p < s -> (qsum (map (fun c => if c =? p then 1 else 0) (seq s k)) == 0)%Q).
      { induction k as [|k IH]; intros s Hs; [reflexivity|]. cbn [seq map]. rewrite qsum_cons, IH by lia. destruct (Nat.eqb_spec s p); [lia|lra]. }
      induction k as [|k IH]; intros s Hs; [lia|]. cbn [seq map]. rewrite qsum_cons. destruct (Nat.eqb_spec s p) as [->|Hn]; [rewrite Z0 by lia; lra|rewrite IH by lia; lra]. }
    apply E. lia.
  Qed.

  Lemma ediv_zero (x y : Q) : (x == 0)%Q -> (y == 0)%Q -> ediv (Fin x) (Fin y) = NaN.
  Proof.
    intros Hx Hy. cbn. replace (Qeq_bool y 0) with true by (symmetry; now apply Qeq_bool_iff). 
    unfold asign. cbn. replace (Qle_bool 0 x) with true by (symmetry; apply Qle_bool_iff; lra). replace (Qle_bool x 0) with true by (symmetry; apply Qle_bool_iff; lra). reflexivity.
  Qed.
  Lemma ediv_fin (x y : Q) : ~ (y == 0)%Q -> ediv (Fin x) (Fin y) = Fin (x / y)%Q.
  Proof. intros Hy. cbn. destruct (Qeq_bool y 0) eqn:E; [apply Qeq_bool_iff in E; contradiction|reflexivity]. Qed.
  Lemma decision_row nc row votes : length row = nc -> (forall v, In v votes -> length v = nc /\ qsum v == 1)%Q ->
    (forall c, nth c row 0 == qsum (map (fun v => nth c v 0) votes))%Q -> mean_of nc votes (map (fun x => ediv (Fin x) (Fin (qsum row))) row).
  Proof.
    intros Hl Hv Hs. pose proof (total nc row votes Hl Hv Hs) as Ht. split; [now rewrite map_length|]. intros c Hc.
    assert (Hn : nth_error row c = Some (nth c row 0%Q)) by (apply nth_error_nth'; lia). rewrite nth_error_map, Hn. cbn [option_map].
    destruct votes as [|v votes].
    - f_equal. apply ediv_zero; [now rewrite Hs|exact Ht].
    - rewrite ediv_fin; [|rewrite Ht; apply Qn_neq0; cbn; lia]. eexists. split; [reflexivity|]. unfold qmean. rewrite map_length, Ht, Hs. reflexivity.
  Qed.

  Lemma argmax_from_spec i best v l : forall pre, length pre = i -> nth_error pre best = Some v -> (forall k x, nth_error pre k = Some x -> (x <= v)%Q) ->
    (forall k x, k < best -> nth_error pre k = Some x -> (x < v)%Q) -> first_max (pre ++ l) (argmax_from i best v l).
  Proof.
    revert i best v. induction l as [|x l IH]; intros i best v pre Hl Hb Hm Hlt; cbn [argmax_from].
    - rewrite app_nil_r. now exists v.
    - replace (pre ++ x :: l) with ((pre ++ [x]) ++ l) by now rewrite <- app_assoc. assert (Hbl : best < length pre) by (apply nth_error_Some; congruence).
      assert (Hcases : forall k y, nth_error (pre ++ [x]) k = Some y -> (k < i /\ nth_error pre k = Some y) \/ (k = i /\ y = x)).
      { intros k y Hy. destruct (Nat.lt_ge_cases k i) as [Hk|Hk].
        - rewrite nth_error_app1 in Hy by lia. auto.
        - rewrite nth_error_app2 in Hy by lia. rewrite Hl in Hy. destruct (k - i) as [|d] eqn:Ed; [right; cbn in Hy; split; [lia|congruence]|]. destruct d; discriminate. }
      destruct (Qle_bool x v) eqn:E.
      + apply Qle_bool_iff in E. apply IH.
        * rewrite app_length. cbn. lia.
        * now rewrite nth_error_app1.
        * intros k y Hy. destruct (Hcases k y Hy) as [[_ H]|[_ ->]]; [eauto|exact E].
        * intros k y Hk Hy. destruct (Hcases k y Hy) as [[_ H]|[H _]]; [eauto|lia].
      + assert (Hvx : (v < x)%Q). { apply Qnot_le_lt. intros H. apply Qle_bool_iff in H. congruence. } apply IH.
        * rewrite app_length. cbn. lia.
        * rewrite nth_error_app2 by lia. now rewrite Hl, Nat.sub_diag.
        * intros k y Hy. destruct (Hcases k y Hy) as [[_ H]|[_ ->]]; [|lra]. specialize (Hm _ _ H). lra.
        * intros k y Hk Hy. destruct (Hcases k y Hy) as [[_ H]|[H _]]; [|lia]. specialize (Hm _ _ H). lra.
  Qed.
  Lemma argmax_spec l : l <> [] -> first_max l (argmax l).
  Proof.
    destruct l as [|x l]; [easy|]. intros _. cbn [argmax]. apply (argmax_from_spec 1 0 x l [x]); auto.
    - intros [|[|k]] y; cbn; try discriminate. intros [= <-]. apply Qle_refl.
    - intros k y Hk. lia.
  Qed.
  Lemma first_max_unique l a b : first_max l a -> first_max l b -> a = b.
  Proof.
    intros (v & Hv & Hm & Hl) (w & Hw & Hm' & Hl'). destruct (Nat.lt_trichotomy a b) as [H|[H|H]]; [|exact H|].
    - pose proof (Hl' _ _ H Hv). pose proof (Hm _ _ Hw). lra.
    - pose proof (Hl _ _ H Hw). pose proof (Hm' _ _ Hv). lra.
  Qed.

  (** What the out-of-bag step computes. *)
  Lemma oob_spec nc val X y ts decision score : casts nc val -> length y = length X -> set_oob_score _ _ _ _ est X y nc ts = Ok (decision, score) ->
    exists P, length P = length X /\ length decision = length X /\
      (forall i x, nth_error X i = Some x -> exists row votes, nth_error P i = Some row /\ length row = nc /\ opinions val ts i x votes /\
        nth_error decision i = Some (map (fun z => ediv (Fin z) (Fin (qsum row))) row) /\ forall c, (nth c row 0 == qsum (map (fun v => nth c v 0) votes))%Q) /\
      score = ediv (Fin (Qn (length (filter (fun py => Nat.eqb (argmax (fst py)) (snd py)) (combine P y))))) (Fin (Qn (length y))).
  Proof.
    intros Hc Hy. unfold set_oob_score. cbv zeta. destruct (foldM _ _ ts) as [P|] eqn:E; cbn [bind]; [|discriminate]. intros [= <- <-].
    destruct (rounds nc val X ts Hc (repeat (repeat 0%Q nc) (length y)) P) as (H1 & H2 & H3); [now rewrite repeat_length| |exact E|].
    { apply Forall_forall. intros r Hr. apply repeat_spec in Hr as ->. apply repeat_length. }
    exists P. split; [exact H1|]. split; [now rewrite map_length|]. split; [|reflexivity]. intros i x Hx. assert (Hi : i < length X) by (apply nth_error_Some; congruence).
    assert (Hz : nth_error (repeat (repeat 0%Q nc) (length y)) i = Some (repeat 0%Q nc)) by (apply nth_error_repeat; lia).
    destruct (H3 i x _ Hx Hz) as (row & votes & Hr & Hop & Hs). exists row, votes. split; [exact Hr|]. split; [rewrite Forall_forall in H2; apply H2; eapply nth_error_In; eauto|].
    split; [exact Hop|]. split; [rewrite nth_error_map, Hr; reflexivity|]. intros c. rewrite Hs. rewrite nth_repeat. lra.
  Qed.

  (** ** At the level of fit *)
  Lemma fit_oob p jobs sched (d : data num) (self : attributes model) h h' a : 0 < jobs -> fit p jobs sched d self h = Ok (h', a) -> oob_score p = true ->
    exists ts y decision score, ensemble _ a = Some ts /\ oob _ a = Some (decision, score) /\ codes_of (d_labels _ d) y /\ length y = length (d_rows _ d) /\
      0 < length (d_rows _ d) /\ 0 < n_classes _ a /\ set_oob_score _ _ _ _ est (d_rows _ d) y (n_classes _ a) ts = Ok (decision, score).
  Proof.
    intros Hj E Ho. pose proof (fit_visible np est p jobs sched d self h Hj) as E1. rewrite E in E1. cbn [visible] in E1. symmetry in E1.
    unfold pure_fit in E1. destruct (prepare p d self h) as [[[[j nc] old] k]|e] eqn:Ep; [|discriminate]. cbn [bind] in E1.
    destruct (prepare_inv _ _ _ _ _ _ _ _ Ep) as (m & idx & classes & y & ms & mf & Em & Hcov & Hn & Hwd & Hlab & Hwt & Hy & Hne & Hms & Hmf & Hwo & Hold & Hk0 & Hk & Hnc & ->).
    rewrite Ho, Bool.andb_true_r in Hwo. rewrite Hwo in Hold. subst old. cbn [length] in *. destruct (Nat.eqb_spec k 0); [lia|].
    destruct (do _ <- allowed est _ ;; _) as [new|e]; [|discriminate]. cbn [bind j_y] in E1. rewrite Ho in E1.
    destruct (set_oob_score _ _ _ _ est (d_rows _ d) y nc ([] ++ new)) as [[decision score]|e] eqn:Es; [|discriminate]. cbn [bind] in E1. injection E1 as <-.
    destruct (validate_codes _ _ _ Hy) as (Hcodes & Hly & Hcl). exists new, y, decision, score. split; [reflexivity|]. split; [reflexivity|]. split; [exact Hcodes|]. split; [congruence|]. split; [exact Hn|].
    split; [|exact Es]. cbn [n_classes]. rewrite Hnc, Hcl. destruct (d_labels _ d) as [|l labels]; [cbn in Hlab; lia|].
    assert (Hin : In l (np_uniqueZ (l :: labels))) by (apply np_uniqueZ_In; now left). destruct (np_uniqueZ (l :: labels)); [destruct Hin|cbn; lia].
  Qed.
  Lemma opinions_In {A} (f : model -> list num -> A) ts i x l v : opinions f ts i x l -> In v l -> exists m x', v = f m x'.
  Proof. unfold opinions. intros H. induction H as [|t w u l (x' & _ & Hw) _ IH]; intros Hin; [destruct Hin|]. destruct Hin as [<-|Hin]; eauto. Qed.
  Lemma opinions_map {A B} (f : model -> list num -> A) (g : A -> B) (val : model -> list num -> B) ts i x l : (forall m x, val m x = g (f m x)) ->
    opinions val ts i x l -> exists l', opinions f ts i x l' /\ l = map g l'.
  Proof.
    intros Hg. unfold opinions. intros H. induction H as [|t w u l (x' & Hx' & Hw) _ (l' & Hl' & ->)]; [exists []; split; [constructor|reflexivity]|].
    exists (f (t_model _ t) x' :: l'). split; [constructor; [now exists x'|exact Hl']|]. cbn [map]. now rewrite <- Hg, <- Hw.
  Qed.
  Lemma c51_proba p jobs sched (d : data num) (self : attributes model) h h' a proba f : 0 < jobs -> fit p jobs sched d self h = Ok (h', a) -> oob_score p = true ->
    predict_proba _ _ _ _ est = Some proba -> row_wise proba f (n_classes _ a) -> (forall m x, qsum (f m x) == 1)%Q ->
    exists ts decision score, ensemble _ a = Some ts /\ oob _ a = Some (decision, score) /\ length decision = length (d_rows _ d) /\
      forall i x, nth_error (d_rows _ d) i = Some x -> exists row l, nth_error decision i = Some row /\ opinions f ts i x l /\ mean_of (n_classes _ a) l row.
  Proof.
    intros Hj E Ho Hp [Hrw Hlen] Hone. destruct (fit_oob _ _ _ _ _ _ _ _ Hj E Ho) as (ts & y & decision & score & Hts & Hoob & _ & Hly & _ & _ & Es).
    exists ts, decision, score. split; [exact Hts|]. split; [exact Hoob|].
    assert (Hc : casts (n_classes _ a) f) by (split; [exact Hlen|left; exists proba; auto]).
    destruct (oob_spec _ _ _ _ _ _ _ Hc Hly Es) as (P & _ & Hd & Hrows & _). split; [exact Hd|]. intros i x Hx. destruct (Hrows i x Hx) as (row & l & _ & Hl & Hop & Hdec & Hs).
    exists (map (fun z => ediv (Fin z) (Fin (qsum row))) row), l. split; [exact Hdec|]. split; [exact Hop|]. apply decision_row; auto. intros v Hv.
    destruct (opinions_In _ _ _ _ _ _ Hop Hv) as (m & x' & ->). auto.
  Qed.
  Lemma count_votes nc l c : c < nc -> (qsum (map (fun v => nth c v 0) (map (vote nc) l)) == Qn (count_occ Nat.eq_dec l c))%Q.
  Proof.
    intros Hc. induction l as [|p l IH]; [reflexivity|]. cbn [map]. rewrite qsum_cons, IH, vote_spec. destruct (Nat.ltb_spec c nc); [|lia]. cbn [andb].
    destruct (Nat.eqb_spec c p) as [->|Hn].
    - rewrite count_occ_cons_eq by reflexivity. rewrite Qn_S. lra.
    - rewrite count_occ_cons_neq by auto. lra.
  Qed.
  Lemma c51_labels p jobs sched (d : data num) (self : attributes model) h h' a f : 0 < jobs -> fit p jobs sched d self h = Ok (h', a) -> oob_score p = true ->
    predict_proba _ _ _ _ est = None -> row_wise_labels (predict _ _ _ _ est) f -> (forall m x, f m x < n_classes _ a) ->
    exists ts decision score, ensemble _ a = Some ts /\ oob _ a = Some (decision, score) /\ length decision = length (d_rows _ d) /\
      forall i x, nth_error (d_rows _ d) i = Some x -> exists row l, nth_error decision i = Some row /\ opinions f ts i x l /\ share_of (n_classes _ a) l row.
  Proof.
    intros Hj E Ho Hp Hrw Hlt. destruct (fit_oob _ _ _ _ _ _ _ _ Hj E Ho) as (ts & y & decision & score & Hts & Hoob & _ & Hly & _ & _ & Es).
    exists ts, decision, score. split; [exact Hts|]. split; [exact Hoob|]. set (nc := n_classes _ a) in *. set (val := fun m x => vote nc (f m x)).
    assert (Hvl : forall m x, length (val m x) = nc) by (intros; unfold val, vote; now rewrite map_length, seq_length).
    assert (Hc : casts nc val) by (split; [exact Hvl|right; exists f; auto]).
    destruct (oob_spec _ _ _ _ _ _ _ Hc Hly Es) as (P & _ & Hd & Hrows & _). split; [exact Hd|]. intros i x Hx. destruct (Hrows i x Hx) as (row & l & _ & Hl & Hop & Hdec & Hs).
    assert (Hm : mean_of nc l (map (fun z => ediv (Fin z) (Fin (qsum row))) row)).
    { apply decision_row; auto. intros v Hv. destruct (opinions_In _ _ _ _ _ _ Hop Hv) as (m & x' & ->). split; [apply Hvl|]. apply vote_sum. apply Hlt. }
    destruct (opinions_map f (vote nc) val ts i x l (fun m x => eq_refl) Hop) as (l' & Hop' & ->).
    exists (map (fun z => ediv (Fin z) (Fin (qsum row))) row), l'. split; [exact Hdec|]. split; [exact Hop'|]. destruct Hm as [Hm1 Hm2]. split; [exact Hm1|]. intros c Hcc. specialize (Hm2 c Hcc).
    destruct l' as [|p0 l']; [exact Hm2|]. cbn [map] in Hm2. destruct Hm2 as (q & Hq1 & Hq2). exists q. split; [exact Hq1|]. rewrite Hq2. unfold qmean.
    pose proof (count_votes nc (p0 :: l') c Hcc) as Hcv. cbn [map] in Hcv. rewrite Hcv. cbn [length]. rewrite !map_length. reflexivity.
  Qed.

  (** The score. *)
  Lemma first_max_scale (row : list Q) (k : nat) (s : Q) (row' : list Q) : (0 < s)%Q -> length row' = length row -> (forall c, c < length row -> (nth c row' 0 == s * nth c row 0)%Q) ->
    first_max row k -> first_max row' k.
  Proof.
    intros Hs Hl He (v & Hv & Hm & Hlt). assert (Hk : k < length row) by (apply nth_error_Some; congruence).
    assert (Hval : forall c z, nth_error row' c = Some z -> exists w, nth_error row c = Some w /\ (z == s * w)%Q /\ c < length row).
    { intros c z Hz. assert (Hc : c < length row) by (rewrite <- Hl; apply nth_error_Some; congruence). exists (nth c row 0%Q). split; [now apply nth_error_nth'|]. split; [|exact Hc].
      rewrite <- He by exact Hc. rewrite (nth_error_nth _ _ 0%Q Hz). reflexivity. }
    exists (nth k row' 0%Q). assert (Hkv : nth_error row' k = Some (nth k row' 0%Q)) by (apply nth_error_nth'; lia). split; [exact Hkv|].
    assert (Hkk : (nth k row' 0 == s * v)%Q) by (rewrite (He k Hk), (nth_error_nth _ _ 0%Q Hv); reflexivity). split.
    - intros i z Hz. destruct (Hval i z Hz) as (w & Hw & -> & _). rewrite Hkk. specialize (Hm i w Hw). nra.
    - intros i z Hi Hz. destruct (Hval i z Hz) as (w & Hw & -> & _). rewrite Hkk. specialize (Hlt i w Hi Hw). nra.
  Qed.
  Lemma filter_guess (P : list (list Q)) y : length (filter (fun py => Nat.eqb (argmax (fst py)) (snd py)) (combine P y)) = length (filter (fun gy => Nat.eqb (fst gy) (snd gy)) (combine (map argmax P) y)).
  Proof. revert y. induction P as [|r P IH]; intros [|z y]; try reflexivity. cbn [map combine filter fst snd]. destruct (_ =? _); cbn [length]; now rewrite IH. Qed.
  Lemma c51_score p jobs sched (d : data num) (self : attributes model) h h' a proba f : 0 < jobs -> fit p jobs sched d self h = Ok (h', a) -> oob_score p = true ->
    predict_proba _ _ _ _ est = Some proba -> row_wise proba f (n_classes _ a) -> (forall m x, qsum (f m x) == 1)%Q ->
    exists ts y decision q guesses, ensemble _ a = Some ts /\ codes_of (d_labels _ d) y /\ oob _ a = Some (decision, Fin q) /\ length guesses = length (d_rows _ d) /\
      (q == Qn (length (filter (fun gy => Nat.eqb (fst gy) (snd gy)) (combine guesses y))) / Qn (length (d_rows _ d)))%Q /\
      forall i x g, nth_error (d_rows _ d) i = Some x -> nth_error guesses i = Some g -> exists l, opinions f ts i x l /\
        match l with [] => g = 0 | _ => first_max (map (fun c => qmean (map (fun v => nth c v 0) l))%Q (seq 0 (n_classes _ a))) g end.
  Proof.
    intros Hj E Ho Hp [Hrw Hlen] Hone. destruct (fit_oob _ _ _ _ _ _ _ _ Hj E Ho) as (ts & y & decision & score & Hts & Hoob & Hcodes & Hly & Hn & Hnc & Es).
    assert (Hc : casts (n_classes _ a) f) by (split; [exact Hlen|left; exists proba; auto]). set (nc := n_classes _ a) in *.
    destruct (oob_spec _ _ _ _ _ _ _ Hc Hly Es) as (P & HlP & Hd & Hrows & Hsc). rewrite filter_guess, ediv_fin in Hsc by (apply Qn_neq0; lia).
    exists ts, y, decision, (Qn (length (filter (fun gy => Nat.eqb (fst gy) (snd gy)) (combine (map argmax P) y))) / Qn (length y))%Q, (map argmax P).
    split; [exact Hts|]. split; [exact Hcodes|]. split; [now rewrite Hoob, Hsc|]. split; [now rewrite map_length|]. split; [rewrite Hly; reflexivity|].
    intros i x g Hx Hg. destruct (Hrows i x Hx) as (row & l & HP & Hl & Hop & _ & Hs). rewrite nth_error_map, HP in Hg. cbn in Hg. injection Hg as <-. exists l. split; [exact Hop|].
    destruct l as [|v l].
    - assert (Hz : first_max row 0).
      { exists (nth 0 row 0%Q). split; [apply nth_error_nth'; lia|]. split; [|lia]. intros c z Hz. pose proof (Hs c) as Hc0. rewrite (nth_error_nth _ _ 0%Q Hz) in Hc0. rewrite Hc0, (Hs 0). cbn. lra. }
      apply (first_max_unique row); [|exact Hz]. apply argmax_spec. intros ->. cbn in Hl. lia.
    - set (L := v :: l) in *. assert (HL : (0 < Qn (length L))%Q) by (apply Qn_pos; cbn; lia).
      apply (first_max_scale row _ (/ Qn (length L))%Q).
      + apply Qinv_pos. exact HL.
      + rewrite map_length, seq_length. lia.
      + intros c Hcl. rewrite Hl in Hcl. erewrite nth_indep by (rewrite map_length, seq_length; lia). rewrite (map_nth (fun c => qmean (map (fun v => nth c v 0%Q) L)) (seq 0 nc) 0 c), seq_nth by lia.
        cbn [Nat.add]. unfold qmean. rewrite map_length, Hs. unfold Qdiv. apply Qmult_comm.
      + apply argmax_spec. intros ->. cbn in Hl. lia.
  Qed.
End Proofs.
