(** Proofs about the arguments of the technical-indicator factory. *)
From Coq Require Import Reals String Ascii Lia.
From Verif Require Import PreludeFacts Series Feat_Model TAFactory_Model TAFactory_Spec TAFactory_Proofs.
Local Open Scope nat_scope.
Local Open Scope string_scope.

Lemma mem_In x l : mem x l = true <-> In x l.
Proof.
  unfold mem. rewrite existsb_exists. split; [intros (y & H & E)|intros H; exists x; split; auto; apply String.eqb_refl].
  apply String.eqb_eq in E. now subst.
Qed.
Lemma mem_not x l : mem x l = false <-> ~ In x l.
Proof. rewrite <- mem_In. destruct (mem x l); split; auto; try discriminate. intros H. now exfalso; apply H. Qed.

Lemma set_first_instead x v l : NoDup l -> set_first x v l = map (instead x v) l.
Proof.
  induction 1 as [|a l Ha H IH]; [reflexivity|]. cbn [set_first map]. unfold instead at 1. destruct (String.eqb_spec a x) as [->|]; [|now rewrite IH].
  f_equal. rewrite (map_ext_in _ (fun a => a)); [now rewrite map_id|]. intros b Hb. unfold instead. destruct (String.eqb_spec b x) as [->|]; [easy|reflexivity].
Qed.
(** Replacing real1 once real0 has been replaced by something else than real1. *)
Lemma set_first_second c0 c1 l : NoDup l -> c0 <> "real1" ->
  set_first "real1" c1 (map (instead "real0" c0) l) = map (fun a => if String.eqb a "real0" then c0 else if String.eqb a "real1" then c1 else a) l.
Proof.
  intros H Hc. induction H as [|a l Ha H IH]; [reflexivity|]. cbn [map set_first]. unfold instead at 1 2 3. destruct (String.eqb_spec a "real0") as [->|H0].
  - destruct (String.eqb_spec c0 "real1"); [easy|]. now rewrite IH.
  - destruct (String.eqb_spec a "real1") as [->|H1]; [|now rewrite IH]. f_equal. apply map_ext_in. intros b Hb. unfold instead.
    destruct (String.eqb_spec b "real0"); [reflexivity|]. destruct (String.eqb_spec b "real1") as [->|]; [easy|reflexivity].
Qed.
Lemma instead_back x v y l : y <> v -> In y (map (instead x v) l) -> In y l.
Proof. intros Hy H. apply in_map_iff in H as (a & E & H). unfold instead in E. destruct (String.eqb_spec a x); congruence. Qed.

Lemma steps_inputs args col cols : NoDup args -> (In "real" args -> ~ In "real0" args /\ ~ In "real1" args) -> tidy col ->
  (do a <- set_real args col ;; set_real01 a col) = Ok cols <-> inputs args col cols.
Proof.
  intros Hnd Hor Ht. unfold set_real. destruct (mem "real" args) eqn:E; [apply mem_In in E|apply mem_not in E].
  - destruct (Hor E) as [H0 H1]. split.
    + destruct col as [|c|l|]; try discriminate. cbn [bind]. rewrite (set_first_instead _ _ _ Hnd). unfold set_real01.
      destruct (mem "real0" _ && mem "real1" _) eqn:E2.
      * discriminate.
      * intros [= <-]. now constructor.
    + intros H. inversion H; subst; try easy. cbn [bind]. rewrite (set_first_instead _ _ _ Hnd). unfold set_real01.
      replace (mem "real0" _ && mem "real1" _) with false; [reflexivity|]. symmetry. apply Bool.andb_false_iff.
      destruct (string_dec c "real0") as [->|Hc]; [right|left]; apply mem_not; intros Hi; apply instead_back in Hi; auto; discriminate.
  - cbn [bind]. unfold set_real01. destruct (mem "real0" args && mem "real1" args) eqn:E2.
    + apply Bool.andb_true_iff in E2 as [H0 H1]. apply mem_In in H0, H1. split.
      * destruct col as [|c|l|]; try discriminate. destruct (forallb _ l) eqn:El; [|discriminate]. destruct l as [|[c0|] [|[c1|] r]]; try discriminate.
        destruct Ht as [Hl Hc]. destruct r as [|? r]; [|cbn in Hl; lia]. intros [= <-]. rewrite (set_first_instead "real0" _ _ Hnd).
        rewrite set_first_second by eauto. now constructor.
      * intros H. inversion H; subst; try easy; [tauto|]. cbn [forallb andb]. rewrite (set_first_instead "real0" _ _ Hnd).
        destruct Ht as [_ Hc]. rewrite set_first_second by eauto. reflexivity.
    + apply Bool.andb_false_iff in E2. rewrite !mem_not in E2. split.
      * intros [= <-]. constructor; tauto.
      * intros H. inversion H; subst; try easy. tauto.
Qed.

Lemma assoc_In {B} k (m : list (string * B)) v : dictionary m -> (assoc k m = Some v <-> entry m k v).
Proof.
  unfold assoc, entry, dictionary. induction m as [|[k' v'] m IH]; [easy|]. cbn [map fst find snd]. intros H. inversion_clear H as [|? ? Hn Hd].
  destruct (String.eqb_spec k' k) as [->|Hk].
  - cbn. split; [intros [= ->]; now left|]. intros [[= ->]|Hi]; [reflexivity|]. exfalso. apply Hn. now apply (in_map fst) in Hi.
  - rewrite (IH Hd). cbn. split; [now right|]. intros [[= -> _]|Hi]; [easy|auto].
Qed.
Lemma assoc_None {B} k (m : list (string * B)) : assoc k m = None <-> ~ In k (map fst m).
Proof.
  unfold assoc. induction m as [|[k' v'] m IH]; [easy|]. cbn [map fst find snd]. destruct (String.eqb_spec k' k) as [->|Hk].
  - cbn. split; [discriminate|]. intros H. exfalso. apply H. now left.
  - rewrite IH. cbn. tauto.
Qed.
Lemma forallb_keys {B} (m : list (string * B)) l : forallb (fun p => mem (fst p) l) m = true <-> keys_within m l.
Proof.
  unfold keys_within. rewrite forallb_forall. split.
  - intros H k Hk. apply in_map_iff in Hk as ([k' v] & <- & Hi). apply mem_In. exact (H _ Hi).
  - intros H [k v] Hi. apply mem_In. apply H. exact (in_map fst _ _ Hi).
Qed.
Lemma rename_spec m c c' : dictionary m -> (match assoc c m with Some x => x | None => c end = c' <-> renames m c c').
Proof.
  intros Hd. unfold renames. destruct (assoc c m) as [x|] eqn:E.
  - split; [intros <-; left; now apply assoc_In|]. intros [H|[_ H]]; [apply assoc_In in H; congruence|]. apply assoc_None in H. congruence.
  - apply assoc_None in E. split; [intros <-; auto|]. intros [H|[-> _]]; [|reflexivity]. exfalso. apply E. unfold entry in H. now apply (in_map fst) in H.
Qed.
Lemma apply_mapping_spec cols m cols' : proper m -> (apply_mapping cols m = Ok cols' <-> mapped cols m cols').
Proof.
  intros Hp. destruct m as [|m|]; cbn [apply_mapping].
  - split; [intros [= <-]; constructor|]. intros H. now inversion H.
  - destruct (forallb _ m) eqn:E; [apply forallb_keys in E|]; split; intros H.
    + injection H as <-. constructor; auto. clear E. induction cols; constructor; auto. now apply rename_spec.
    + inversion_clear H as [|? ? _ H2]. f_equal. clear E. induction H2 as [|c c' l l' Hc _ IH]; [reflexivity|]. cbn [map]. rewrite IH. f_equal. now apply rename_spec.
    + discriminate.
    + inversion_clear H as [|? ? H1 _]. apply forallb_keys in H1. congruence.
  - split; [discriminate|]. intros H. inversion H.
Qed.
Lemma kwargs_spec V kw kwargs k : (kwargs = [] -> kw <> Some []) ->
  check_and_set_kwargs V kw (match kwargs with [] => None | _ => Some kwargs end) = Ok k <-> keywords kwargs kw k.
Proof.
  intros Hne. unfold check_and_set_kwargs. destruct kwargs as [|n ns].
  - destruct kw as [kw|].
    + split; [discriminate|]. intros H. inversion H as [|? H1]; subst. destruct k as [|[x v] k]; [now specialize (Hne eq_refl)|]. now destruct (H1 x (or_introl eq_refl)).
    + split; [intros [= <-]; constructor|]. intros H. now inversion H.
  - destruct kw as [kw|].
    + destruct (forallb _ kw) eqn:E; [apply forallb_keys in E|]; split; intros H.
      * injection H as <-. now constructor.
      * inversion H; reflexivity.
      * discriminate.
      * inversion H as [|? H1]; subst. apply forallb_keys in H1. congruence.
    + split; [intros [= <-]; constructor|]. intros H. now inversion H.
Qed.

Lemma c58_create V d name f fname args kwargs more col m kw t : get_ta_func V d name = Ok f -> ta_doc V f = Some (doc_of fname args kwargs more) ->
  plain_name fname -> args <> [] -> Forall plain_name args -> Forall plain_name kwargs -> further_lines more ->
  NoDup args -> (In "real" args -> ~ In "real0" args /\ ~ In "real1" args) ->
  tidy col -> proper m -> (kwargs = [] -> kw <> Some []) ->
  (create_transformer V d name col m kw = Ok t <-> exists cols cols' k, inputs args col cols /\ mapped cols m cols' /\ keywords kwargs kw k /\ t = transformed V f cols' k).
Proof.
  intros Hf Hdoc Hn Hne Ha Hk Hmore Hnd Hor Ht Hp Hkw. unfold create_transformer. rewrite Hf. cbn [bind].
  rewrite (c57 V d f name fname args kwargs more) by auto. cbn [bind fst snd]. unfold check_and_set_args.
  assert (Ebind : (do a <- set_real args col ;; do b <- set_real01 a col ;; apply_mapping b m) = (do b <- (do a <- set_real args col ;; set_real01 a col) ;; apply_mapping b m)).
  { destruct (set_real args col); reflexivity. }
  rewrite Ebind. split.
  - destruct (do a <- set_real args col ;; set_real01 a col) as [cols|e] eqn:E1; [|discriminate]. cbn [bind].
    destruct (apply_mapping cols m) as [cols'|e] eqn:E2; [|discriminate]. cbn [bind]. destruct (check_and_set_kwargs V kw _) as [k|e] eqn:E3; [|discriminate]. cbn [bind].
    intros E. assert (t = transformed V f cols' k) as -> by congruence. exists cols, cols', k. split; [|split; [|split; [|reflexivity]]].
    + now apply steps_inputs.
    + now apply apply_mapping_spec.
    + now apply kwargs_spec.
  - intros (cols & cols' & k & H1 & H2 & H3 & ->). apply (steps_inputs args col cols Hnd Hor Ht) in H1. rewrite H1. cbn [bind].
    apply (apply_mapping_spec cols m cols' Hp) in H2. rewrite H2. cbn [bind]. apply (kwargs_spec V kw kwargs k Hkw) in H3. now rewrite H3.
Qed.

Lemma rows_of_hold o : (forall l, o = Several l -> Forall (fun c => List.length c = List.length (hd [] l)) l) -> rows_hold o (rows_of o).
Proof.
  intros Hl. destruct o as [s|[|s l]]; [reflexivity|now intros s|]. specialize (Hl _ eq_refl). cbn [hd] in Hl. cbn [rows_hold rows_of hd_error].
  intros s' [= <-]. split; [now rewrite map_length, seq_length|]. intros i row Hrow. rewrite nth_error_map in Hrow.
  destruct (nth_error (seq 0 (List.length s)) i) as [i'|] eqn:Ei; [|discriminate]. cbn [option_map] in Hrow.
  assert (row = map (fun c => nth i' c NaN) (s :: l)) as -> by congruence. rewrite map_length. split; [reflexivity|].
  assert (Hi : i < List.length s) by (rewrite <- (seq_length (List.length s) 0); apply nth_error_Some; congruence).
  assert (i' = i) as ->.
  { pose proof (nth_error_nth _ _ 0 Ei) as E. rewrite seq_nth in E by auto. lia. }
  intros j c Hj x Hx. rewrite nth_error_map, Hj. cbn. f_equal. now apply nth_error_nth.
Qed.

Lemma transformed_runs V f cols k : runs f cols k (transformed V f cols k).
Proof.
  intros X. unfold transformed. split.
  - intros (c & Hc & Hm). replace (forallb _ cols) with false; [reflexivity|]. symmetry. apply Bool.not_true_iff_false. intros E.
    rewrite forallb_forall in E. apply Hm. apply mem_In. now apply E.
  - intros columns H.
    assert (Hall : forallb (fun a => mem a (map fst (f_cols X))) cols = true).
    { rewrite forallb_forall. intros a Ha. apply mem_In. clear -H Ha. induction H as [|c col l l' Hc _ IH]; [easy|]. destruct Ha as [->|Ha]; [|auto].
      unfold lookup in Hc. destruct (find _ (f_cols X)) as [p|] eqn:E; [|discriminate]. apply find_some in E as [Hp E]. apply String.eqb_eq in E. rewrite <- E. now apply in_map. }
    rewrite Hall. cbn [negb raise_if bind].
    assert (Hcols : mapM (fun a => column a X) cols = Ok columns).
    { clear Hall. induction H as [|c col l l' Hc _ IH]; [reflexivity|]. cbn [mapM]. unfold column at 1. rewrite Hc. cbn [bind]. now rewrite IH. }
    rewrite Hcols. cbn [bind]. destruct (ta_run V f columns k) as [o|e]; [|reflexivity]. cbn [bind]. exists (rows_of o). split; [reflexivity|]. apply rows_of_hold.
Qed.
Lemma c58_accept V d name f fname args kwargs more col m kw : get_ta_func V d name = Ok f -> ta_doc V f = Some (doc_of fname args kwargs more) ->
  plain_name fname -> args <> [] -> Forall plain_name args -> Forall plain_name kwargs -> further_lines more ->
  NoDup args -> (In "real" args -> ~ In "real0" args /\ ~ In "real1" args) ->
  tidy col -> proper m -> (kwargs = [] -> kw <> Some []) ->
  ((exists t, create_transformer V d name col m kw = Ok t) <->
   (exists cols cols' k, inputs args col cols /\ mapped cols m cols' /\ keywords kwargs kw k)) /\
  (forall t cols cols' k, create_transformer V d name col m kw = Ok t -> inputs args col cols -> mapped cols m cols' -> keywords kwargs kw k ->
     runs f cols' k t).
Proof.
  intros. assert (E := fun t => c58_create V d name f fname args kwargs more col m kw t ltac:(eauto) ltac:(eauto) ltac:(eauto) ltac:(eauto)
    ltac:(eauto) ltac:(eauto) ltac:(eauto) ltac:(eauto) ltac:(eauto) ltac:(eauto) ltac:(eauto) ltac:(eauto)).
  split; [split|].
  - intros [t Ht]. apply E in Ht as (cols & cols' & k & ? & ? & ? & _). eauto 8.
  - intros (cols & cols' & k & ? & ? & ?). exists (transformed V f cols' k). apply E. eauto 10.
  - intros t cols cols' k Ht H11 H12 H13. assert (Ht' : create_transformer V d name col m kw = Ok (transformed V f cols' k)) by (apply E; eauto 10).
    assert (t = transformed V f cols' k) as -> by congruence. apply transformed_runs.
Qed.
Lemma c58_unknown V d name col m kw : ~ In name (map fst d) -> create_transformer V d name col m kw = Err ValueError.
Proof.
  intros H. unfold create_transformer, get_ta_func. destruct (find _ d) as [p|] eqn:E; [|reflexivity]. apply find_some in E as [Hp E]. apply String.eqb_eq in E.
  exfalso. apply H. rewrite <- E. now apply in_map.
Qed.
(** The error raised: a short list of names is the only one not reported as a ValueError or a TypeError. *)
Lemma c58_errors V d name f fname args kwargs more col m kw e : get_ta_func V d name = Ok f -> ta_doc V f = Some (doc_of fname args kwargs more) ->
  plain_name fname -> args <> [] -> Forall plain_name args -> Forall plain_name kwargs -> further_lines more ->
  create_transformer V d name col m kw = Err e ->
  e = ValueError \/ e = TypeError /\ m = MOther \/ e = IndexError /\ In "real0" args /\ In "real1" args /\ exists l, col = CList l /\ List.length l < 2.
Proof.
  intros Hf Hdoc Hn Hne Ha Hk Hmore. unfold create_transformer. rewrite Hf. cbn [bind].
  rewrite (c57 V d f name fname args kwargs more) by auto. cbn [bind fst snd]. unfold check_and_set_args.
  destruct (set_real args col) as [args1|e1] eqn:E1; cbn [bind].
  2:{ unfold set_real in E1. destruct (mem "real" args); [|discriminate]. destruct col; try discriminate; intros; left; congruence. }
  destruct (set_real01 args1 col) as [args2|e1] eqn:E2; cbn [bind].
  2:{ assert (Ecol : (exists l, col = CList l) -> args1 = args).
      { intros [l ->]. unfold set_real in E1. destruct (mem "real" args); congruence. }
      unfold set_real01 in E2. destruct (mem "real0" args1 && mem "real1" args1) eqn:Em; [|discriminate]. apply Bool.andb_true_iff in Em as [H0 H1].
      destruct col as [|c|l|]; try (intros; left; congruence). destruct (forallb _ l) eqn:El; [|intros; left; congruence].
      rewrite Ecol in H0, H1 by eauto. apply mem_In in H0, H1. intros [= <-]. right. right.
      destruct l as [|[c0|] [|[c1|] r]]; try discriminate; injection E2 as <-; repeat split; auto; eexists; (split; [reflexivity|cbn; lia]). }
  destruct (apply_mapping args2 m) as [cols|e1] eqn:E3; cbn [bind].
  2:{ destruct m as [|m|]; try discriminate; [|intros; right; left; cbn in E3; split; congruence]. cbn [apply_mapping] in E3. destruct (forallb _ m); [discriminate|]. intros; left; congruence. }
  destruct (check_and_set_kwargs V kw _) as [k|e1] eqn:E4; cbn [bind]; [discriminate|]. intros [= <-]. left. unfold check_and_set_kwargs in E4.
  destruct kwargs; destruct kw; try congruence. destruct (forallb _ _); congruence.
Qed.

(** ** What splitting yields *)
Lemma starts_with_inv p : forall s, starts_with p s = true -> exists r, s = (p ++ r)%list.
Proof.
  induction p as [|a p IH]; intros s H; [now exists s|]. destruct s as [|b s]; [discriminate|]. cbn [starts_with] in H.
  apply andb_true_iff in H. destruct H as [E H]. apply Ascii.eqb_eq in E. subst b. destruct (IH s H) as [r ->]. now exists r.
Qed.
Lemma split_at_ne sep : forall s k acc, split_at sep k acc s <> [].
Proof. induction s as [|c s IH]; intros k acc; cbn [split_at]; [discriminate|]. destruct k; [|apply IH]. destruct (starts_with sep (c :: s)); [discriminate|apply IH]. Qed.
Lemma join_cons sep (x : text) l : l <> [] -> joined sep (x :: l) = (x ++ sep ++ joined sep l)%list.
Proof. destruct l; [easy|reflexivity]. Qed.

Lemma split_spec h sep' n : forall s acc, List.length s <= n ->
  (forall a b, (rev acc ++ s)%list = (a ++ (h :: sep') ++ b)%list -> List.length acc <= List.length a) ->
  joined (h :: sep') (split_at (h :: sep') 0 acc s) = (rev acc ++ s)%list /\ Forall (fun x => forall a b, x <> (a ++ (h :: sep') ++ b)%list) (split_at (h :: sep') 0 acc s).
Proof.
  induction n as [|n IH]; intros s acc Hn Hacc; (destruct s as [|c s];
    [cbn [split_at joined]; split; [now rewrite app_nil_r|]; constructor; [|constructor]; intros a b E; specialize (Hacc a b);
     rewrite app_nil_r in Hacc; specialize (Hacc E); apply (f_equal (@List.length _)) in E; rewrite rev_length, !app_length in E; cbn in E; lia|]).
  - cbn in Hn. lia.
  - destruct (starts_with (h :: sep') (c :: s)) eqn:E.
    + destruct (starts_with_inv _ _ E) as [r Er]. rewrite Er. rewrite split_sep.
      assert (Hr : List.length r <= n). { apply (f_equal (@List.length _)) in Er. rewrite app_length in Er. cbn in Er, Hn. lia. }
      destruct (IH r [] Hr) as [J F]; [cbn; lia|]. cbn [rev app] in J. rewrite join_cons by apply split_at_ne. rewrite J. split; auto.
      constructor; auto. intros a b E'. specialize (Hacc a (b ++ c :: s)%list). rewrite E' in Hacc. rewrite !app_assoc in Hacc.
      specialize (Hacc eq_refl). apply (f_equal (@List.length _)) in E'. rewrite rev_length, !app_length in E'. cbn in E'. lia.
    + cbn [split_at]. rewrite E. cbn in Hn. destruct (IH s (c :: acc)) as [J F]; [lia| |].
      * intros a b E'. cbn [rev] in E'. rewrite <- app_assoc in E'. cbn [app] in E'. pose proof (Hacc a b E') as Hl. cbn [List.length].
        destruct (Nat.eq_dec (List.length a) (List.length acc)) as [El|]; [|lia]. exfalso.
        assert (c :: s = ((h :: sep') ++ b)%list) as Es.
        { apply (f_equal (skipn (List.length acc))) in E'. rewrite <- (rev_length acc) in E' at 1. rewrite skipn_app, skipn_all, Nat.sub_diag in E'.
          rewrite <- El in E'. rewrite skipn_app, skipn_all, Nat.sub_diag in E'. exact E'. }
        rewrite Es, starts_with_app in E. discriminate.
      * split; auto. rewrite J. cbn [rev]. now rewrite <- app_assoc.
Qed.
Lemma c57_split sep s : sep <> [] -> joined sep (split sep s) = s /\ Forall (fun x => forall a b, x <> (a ++ sep ++ b)%list) (split sep s).
Proof. destruct sep as [|h sep']; [easy|]. intros _. apply (split_spec h sep' (List.length s) s []); [lia|]. cbn. lia. Qed.
