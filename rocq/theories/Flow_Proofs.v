From Coq Require Import QArith Reals Lra Permutation Sorted.
From Verif Require Import PreludeFacts Series CV_Spec CV_Model CV_Proofs CV_Proofs2 CV_Proofs3 Boot_Spec Boot_Model Boot_Proofs Boot_Proofs2
  Label_Model Label_Spec Label_Proofs Label_Proofs2 Label_Proofs3 Label_Proofs4 Weights_Model Weights_Proofs Weights_Proofs2 OLS_Spec Trend_Model Trend_Spec Trend_Proofs Trend_Proofs2 Trend_Proofs3 Trend_Proofs4 Cusum_Spec Cusum_Model Cusum_Proofs
  Num Bag_Model Bag_Spec Bag_Proofs Bag_Proofs2 Bag_Proofs3 Bag_Proofs4 Bag_Proofs6 Flow_Model Flow_Spec.
Local Open Scope nat_scope.

Lemma increasing_sub {V} (f : V -> list (Z * Z)) (g : V -> Z) (l : list V) :
  (forall v, f v = [] \/ exists e, f v = [(g v, e)]) -> increasingZ (map g l) -> increasingZ (map fst (flat_map f l)).
Proof.
  intros Hf. induction l as [|v l IH]; cbn [map flat_map]; intros Hl; [constructor|].
  inversion Hl as [|? ? Hl' Hall]; subst. specialize (IH Hl'). rewrite map_app.
  destruct (Hf v) as [->|[e ->]]; [exact IH|]. cbn. constructor; [exact IH|].
  apply Forall_forall. intros x Hx. apply in_map_iff in Hx. destruct Hx as ([s e'] & <- & Hin). cbn.
  apply in_flat_map in Hin. destruct Hin as (w & Hw & Hin).
  rewrite Forall_forall in Hall. apply Hall. apply in_map_iff. exists w. split; [|exact Hw].
  destruct (Hf w) as [E|[e'' E]]; rewrite E in Hin; cbn in Hin; [easy|]. destruct Hin as [Hin|[]]. now injection Hin.
Qed.

Section Labels.
  Context {A : Type} {HA : Arith A}.

  Lemma map_fst_combine_inc {V} (idx : list Z) (out : list V) : increasingZ idx -> increasingZ (map fst (combine idx out)).
  Proof.
    revert out. induction idx as [|t idx IH]; intros [|o out] H; cbn; try constructor; inversion H as [|? ? H1 H2]; subst.
    - apply IH; assumption.
    - apply Forall_forall. intros x Hx. apply in_map_iff in Hx. destruct Hx as ([u w] & <- & Hin). cbn.
      rewrite Forall_forall in H2. apply H2. eapply in_combine_l. exact Hin.
  Qed.

  Lemma label_spans_in (idx : list Z) (out : list (out_row A)) s e : In (s, e) (label_spans idx out) ->
    exists i o, nth_error idx i = Some s /\ nth_error out i = Some o /\ o_end o = Some e.
  Proof.
    unfold label_spans. intros H. apply in_flat_map in H. destruct H as ([t o] & Hin & H). cbn in H.
    destruct (o_end o) as [e'|] eqn:E; [|easy]. destruct (is_nan _ || _ || _); [easy|]. destruct H as [H|[]]. injection H as <- <-.
    apply In_nth_error in Hin. destruct Hin as [i Hi]. exists i, o.
    revert out i Hi. induction idx as [|x idx IH]; intros [|y out] [|i] Hi; cbn in Hi; try discriminate.
    - injection Hi as <- <-. auto.
    - cbn. apply IH. exact Hi.
  Qed.

  Lemma label_spans_proper daily_vol order (cfg : config A) y out :
    valid_times (f_index y) -> well_formed y -> Permutation order (seq 0 (length (f_index y))) -> (0 <= n_expiration_bars cfg)%Z ->
    Label_Model.transform daily_vol order cfg y = Ok out -> proper_spans (label_spans (f_index y) out).
  Proof.
    intros Hv Hw Hp Hn Ht. split.
    - unfold label_spans. eapply (increasing_sub _ fst); [|apply map_fst_combine_inc, Hv].
      intros [t o]. cbn. destruct (o_end o); [|now left]. destruct (is_nan _ || _ || _); [now left|]. right. eauto.
    - intros s e Hin. apply label_spans_in in Hin. destruct Hin as (i & o & H1 & H2 & H3).
      destruct (c27_bounds daily_vol order cfg y out i o e s Hv Hw Hp Hn Ht H2 H3 H1) as (_ & H & _). exact H.
  Qed.
End Labels.

Lemma label_spans_exact {A} (idx : list Z) (out : list (out_row A)) s e : In (s, e) (label_spans idx out) <->
  exists i o, nth_error idx i = Some s /\ nth_error out i = Some o /\ complete_row o e.
Proof.
  unfold label_spans. rewrite in_flat_map. split.
  - intros ([t o] & Hin & H). cbn in H. destruct (o_end o) as [e'|] eqn:E; [|easy].
    destruct (is_nan _ || _ || _) eqn:EN; [easy|]. destruct H as [H|[]]. injection H as <- <-.
    apply orb_false_iff in EN. destruct EN as [EN E3]. apply orb_false_iff in EN. destruct EN as [E1 E2].
    apply In_nth_error in Hin. destruct Hin as [i Hi]. exists i, o. rewrite <- and_assoc. split.
    + clear - Hi. revert out i Hi. induction idx as [|x idx IH]; intros [|y out] [|i] Hi; cbn in Hi; try discriminate.
      * injection Hi as <- <-. auto.
      * cbn. apply IH. exact Hi.
    + repeat split; auto; intros C; rewrite C in *; discriminate.
  - intros (i & o & H1 & H2 & H3 & H4 & H5 & H6). exists (s, o). split.
    + clear - H1 H2. revert out i H1 H2. induction idx as [|x idx IH]; intros [|y out] [|i] H1 H2; cbn in *; try discriminate.
      * left. congruence.
      * right. eapply IH; eassumption.
    + cbn. rewrite H3. destruct (o_vol o), (o_return o), (o_label o); cbn; auto; congruence.
Qed.

(** * Trend labels *)

Lemma trend_rows inv junk cfg events y rows : 1 <= t_min cfg -> increasingZ (map fst y) -> snd (Trend_Model.transform inv junk cfg events y) = Ok rows ->
  map tr_start rows = match events with None => map fst y | Some ev => ev end /\
  forall r e, In r rows -> tr_end r = Some e -> (tr_start r <= e)%Z /\ In e (map fst y).
Proof.
  intros Hm Hi. unfold Trend_Model.transform. destruct (negb _); [discriminate|]. cbn [snd].
  set (ev := match events with None => map fst y | Some ev => ev end). clearbody ev.
  generalize 0 as n0. revert rows. induction ev as [|t ev IH]; intros rows n0 H; cbn [length seq combine mapM] in H.
  - injection H as <-. split; [reflexivity|easy].
  - destruct (position t (map fst y)) as [p|] eqn:Ep; [|discriminate]. apply position_Some in Ep.
    destruct (scan_index _ _ _ _ _ _ _) as [s|] eqn:Es; [|discriminate]. cbn [bind] in H.
    destruct (trend_row_of y t p s) as [r|] eqn:Er; [|discriminate]. cbn [bind] in H.
    destruct (mapM _ _) as [rs|] eqn:Erest; [|discriminate]. injection H as <-.
    destruct (IH rs (S n0) Erest) as [H1 H2]. clear IH.
    assert (Hr : tr_start r = t /\ forall e, tr_end r = Some e -> (t <= e)%Z /\ In e (map fst y)).
    { unfold trend_row_of in Er. destruct s as [[tv k]|]; [|injection Er as <-; cbn; split; [reflexivity|discriminate]].
      unfold get in Er. destruct (nth_error y k) as [re|] eqn:E1; [|discriminate]. cbn [bind] in Er.
      destruct (nth_error y p) as [r0|] eqn:E2; [|discriminate]. injection Er as <-. cbn [tr_start tr_end]. split; [reflexivity|].
      intros e He. injection He as <-. split; [|apply in_map; eapply nth_error_In; exact E1].
      unfold scan_index in Es. destruct (Nat.eqb _ _); [|discriminate].
      destruct (scan_window _ _ _ _ _) as [[tv' i]|]; [|discriminate]. cbn in Es. injection Es as _ <-.
      assert (Hk : nth_error (map fst y) (p + i + t_min cfg - 1) = Some (fst re)) by now rewrite nth_error_map, E1.
      destruct (Nat.eq_dec p (p + i + t_min cfg - 1)) as [Heq|Hne].
      - rewrite <- Heq in Hk. assert (fst re = t) by congruence. lia.
      - apply Z.lt_le_incl. clear - Hi Ep Hk Hne Hm.
        assert (HN : forall l, increasingZ l -> forall i j x y, i < j -> nth_error l i = Some x -> nth_error l j = Some y -> (x < y)%Z).
        { induction l as [|a l IH]; intros H [|i'] [|j] x z Hij Hx Hy; try lia; cbn in *; try discriminate.
          - injection Hx as ->. inversion H as [|? ? _ Hall]; subst. rewrite Forall_forall in Hall. apply Hall. eapply nth_error_In. exact Hy.
          - inversion H; subst. apply (IH H2 i' j); auto. lia. }
        apply (HN (map fst y) Hi p (p + i + t_min cfg - 1)); auto. lia. }
    destruct Hr as [Hr1 Hr2]. split.
    + cbn. congruence.
    + intros r' e [<-|Hin] He; [rewrite Hr1; auto|eauto].
Qed.

Lemma labelled_proper l : labelled l -> proper_spans l.
Proof.
  induction 1.
  - eapply label_spans_proper; eassumption.
  - destruct (trend_rows _ _ _ _ _ _ H1 H H2) as [Hs He]. split.
    + unfold trend_spans. eapply (increasing_sub _ tr_start).
      * intros r. destruct (tr_end r); [|now left]. destruct (is_nan _ || _ || _); [now left|]. right. eauto.
      * rewrite Hs. destruct events; auto.
    + intros s e Hin. unfold trend_spans in Hin. apply in_flat_map in Hin. destruct Hin as (r & Hr & Hin).
      destruct (tr_end r) as [e'|] eqn:E; [|easy]. destruct (is_nan _ || _ || _); [easy|]. destruct Hin as [Hin|[]]. injection Hin as <- <-.
      apply (He r e' Hr E).
  - destruct IHlabelled as [H1 H2]. split.
    + apply (subseq_sorted _ (map fst l)); [|exact H1]. clear - H0. induction H0; cbn; constructor; assumption.
    + intros s e Hin. apply H2. eapply subseq_in; eassumption.
Qed.

(** * Cross-validation on labels *)

Lemma increasingZ_nth l : increasingZ l -> forall i j x y, i < j -> nth_error l i = Some x -> nth_error l j = Some y -> (x < y)%Z.
Proof.
  induction l as [|a l IH]; intros H [|i] [|j] x y Hij Hx Hy; try lia; cbn in *; try discriminate.
  - injection Hx as ->. inversion H as [|? ? _ Hall]; subst. rewrite Forall_forall in Hall. apply Hall. eapply nth_error_In. exact Hy.
  - inversion H; subst. apply (IH H2 i j); auto. lia.
Qed.
Lemma increasing_non_decreasing l : increasingZ l -> non_decreasing l.
Proof.
  intros H i j x y Hij Hx Hy. destruct (Nat.eq_dec i j) as [->|Hne]; [replace x with y by congruence; lia|].
  apply Z.lt_le_incl. apply (increasingZ_nth l H i j); auto. lia.
Qed.

Lemma spans_cv l : proper_spans l -> forall groups tests emb c,
  make_cv groups tests (Some (times_of l)) (Some (ends_of l)) emb = Ok c -> (groups <= Z.of_nat (length l))%Z ->
  (exists ss, split c (length l) = Ok ss) /\
  forall ss train test, split c (length l) = Ok ss -> In (train, test) ss ->
  (forall t s a b, In t train -> In s test -> nth_error l t = Some a -> nth_error l s = Some b -> t < s -> (snd a < fst b)%Z) /\
  ((exists a, In a l /\ forall s b, In s test -> nth_error l s = Some b -> (snd b + emb < fst a)%Z) ->
   forall t s a b, In t train -> In s test -> nth_error l t = Some a -> nth_error l s = Some b -> s < t -> (snd b + emb < fst a)%Z).
Proof.
  intros [Hi He] groups tests emb c Hc Hg.
  assert (L1 : length (times_of l) = length l) by apply map_length.
  assert (L2 : length (ends_of l) = length l) by apply map_length.
  assert (Hnd : non_decreasing (times_of l)) by now apply increasing_non_decreasing.
  assert (HT : forall k a, nth_error l k = Some a -> nth_error (times_of l) k = Some (fst a)) by (intros; unfold times_of; now rewrite nth_error_map, H).
  assert (HE : forall k a, nth_error l k = Some a -> nth_error (ends_of l) k = Some (Some (snd a))) by (intros; unfold ends_of; now rewrite nth_error_map, H).
  split.
  { destruct (c02 groups tests _ _ emb c Hc (length l) Hg L1 L2 Hnd) as (ss & ? & H & _). now exists ss. }
  intros ss train test Hs Hin. split.
  - intros t s a b Ht Hs' Ha Hb Hlt.
    destruct (c05 groups tests _ _ emb c Hc (length l) Hg L1 L2 Hnd ss train test Hs Hin t s Ht Hs' Hlt) as (y & x & Hy & Hx & H).
    rewrite (HE _ _ Ha) in Hy. rewrite (HT _ _ Hb) in Hx. congruence.
  - intros (a0 & Ha0 & H0) t s a b Ht Hs' Ha Hb Hlt.
    apply In_nth_error in Ha0. destruct Ha0 as [j Hj].
    apply (c06 groups tests _ _ emb c Hc (length l) Hg L1 L2 Hnd ss train test Hs Hin) with (t := t) (s := s); auto.
    exists j, (fst a0). split; [auto|]. intros i y Hi' Hy.
    unfold ends_of in Hy. rewrite nth_error_map in Hy. destruct (nth_error l i) as [b'|] eqn:E; [|discriminate]. injection Hy as <-. eauto.
Qed.

(** * Indicator matrix, uniqueness and weights on labels *)

Lemma spans_accepted l bars : proper_spans l -> 2 <= length l -> exists m idx, get_ind_matrix (complete l) bars = Ok (m, idx).
Proof.
  intros [Hi He] Hl. destruct l as [|[s0 e0] [|[s1 e1] l]]; cbn in Hl; try lia.
  apply c14_accept; [discriminate|]. cbn in Hi. inversion Hi as [|? ? _ Hall]; subst. rewrite Forall_forall in Hall.
  assert (H01 : (s0 < s1)%Z) by (apply Hall; now left).
  assert (H0 : (s0 <= e0)%Z) by (apply He; now left).
  split; exists s0.
  - exists s0, e0. split; [left; exists s0, e0; split; [now left|now left]|]. split; [now left|lia].
  - exists s1, e1. split; [left; exists s0, e0; split; [now left|now left]|]. split; [right; now left|lia].
Qed.
Lemma spans_uniqueness l : proper_spans l -> 2 <= length l ->
  exists out, average_uniqueness_transform (map (fun s => (fst s, Some (snd s))) l) = Ok out /\
    map fst out = times_of l /\ forall t u, In (t, u) out -> exists q, u = Some q /\ (0 < q <= 1)%Q.
Proof.
  intros H Hl. pose proof H as [Hi He].
  assert (exists out, average_uniqueness_transform (map (fun s => (fst s, Some (snd s))) l) = Ok out) as [out Ho].
  { apply c61_ok; [apply increasingZ_NoDup, Hi|exact He|].
    destruct l as [|[s0 e0] [|[s1 e1] l]]; cbn in Hl; try lia.
    cbn in Hi. inversion Hi as [|? ? _ Hall]; subst. rewrite Forall_forall in Hall. assert (s0 < s1)%Z by (apply Hall; now left).
    exists s0, s0, e0, s1, e1. split; [now left|]. split; [right; now left|]. split; [now left|lia]. }
  exists out. split; [exact Ho|]. destruct (c61 l out Ho) as (Hf & _ & times & _ & _ & H3). split; [exact Hf|].
  intros t u Hin. apply In_nth_error in Hin. destruct Hin as [j Hj].
  assert (Hn : nth_error (map fst out) j = Some t) by (now rewrite nth_error_map, Hj).
  rewrite Hf, nth_error_map in Hn. destruct (nth_error l j) as [[s e]|] eqn:E; [|discriminate].
  destruct (H3 j s e E (He s e (nth_error_In _ _ E))) as (q & Hq & Hb & _). rewrite Hj in Hq. injection Hq as -> ->. eauto.
Qed.

(** * Whole claims *)

Lemma c77_split l groups tests emb c : labelled l ->
  make_cv groups tests (Some (times_of l)) (Some (ends_of l)) emb = Ok c -> (groups <= Z.of_nat (length l))%Z ->
  exists ss, split c (length l) = Ok ss.
Proof. intros H Hc Hg. apply (spans_cv l (labelled_proper l H) _ _ _ _ Hc Hg). Qed.

Lemma c77_disjoint l groups tests emb c ss train test : labelled l ->
  make_cv groups tests (Some (times_of l)) (Some (ends_of l)) emb = Ok c -> (groups <= Z.of_nat (length l))%Z ->
  split c (length l) = Ok ss -> In (train, test) ss ->
  (forall t s a b, In t train -> In s test -> nth_error l t = Some a -> nth_error l s = Some b -> t < s -> disjoint a b) /\
  ((exists a, In a l /\ forall s b, In s test -> nth_error l s = Some b -> (snd b + emb < fst a)%Z) ->
   forall t s a b, In t train -> In s test -> nth_error l t = Some a -> nth_error l s = Some b ->
     disjoint a b /\ (s < t -> (snd b + emb < fst a)%Z)).
Proof.
  intros H Hc Hg Hs Hin. destruct (spans_cv l (labelled_proper l H) _ _ _ _ Hc Hg) as [_ Hcv].
  destruct (Hcv ss train test Hs Hin) as [H1 H2]. split.
  - intros t s a b Ht Hs' Ha Hb Hlt. left. eapply H1; eassumption.
  - intros Hex t s a b Ht Hs' Ha Hb.
    assert (Hemb : (0 <= emb)%Z) by (apply make_cv_accepted in Hc; apply Hc).
    destruct (lt_eq_lt_dec t s) as [[Hlt| ->]|Hlt].
    + split; [left; eapply H1; eassumption|lia].
    + exfalso.
      assert (L1 : length (times_of l) = length l) by apply map_length.
      assert (L2 : length (ends_of l) = length l) by apply map_length.
      assert (Hnd : non_decreasing (times_of l)) by (apply increasing_non_decreasing; apply labelled_proper, H).
      apply (c07 groups tests _ _ emb c Hc (length l) Hg L1 L2 Hnd ss train test Hs Hin) in Ht. tauto.
    + assert (snd b + emb < fst a)%Z by (eapply H2; eassumption). split; [right; lia|auto].
Qed.

Lemma same_test groups tests pred ev emb emb' c c' n ss ss' j train test train' test' :
  make_cv groups tests (Some pred) (Some ev) emb = Ok c ->
  make_cv groups tests (Some pred) (Some ev) emb' = Ok c' ->
  (groups <= Z.of_nat n)%Z -> length pred = n -> length ev = n -> non_decreasing pred ->
  split c n = Ok ss -> split c' n = Ok ss' ->
  nth_error ss j = Some (train, test) -> nth_error ss' j = Some (train', test') -> test' = test.
Proof.
  intros Hmk Hmk' Hn Hp He Hs Hss Hss' Hj Hj'.
  destruct (split_total _ _ _ _ _ _ Hmk n Hn Hp He Hs) as (s1 & H1 & HF). rewrite Hss in H1. inversion H1; subst s1.
  destruct (split_total _ _ _ _ _ _ Hmk' n Hn Hp He Hs) as (s2 & H2 & HF'). rewrite Hss' in H2. inversion H2; subst s2.
  destruct (cv_fields _ _ _ _ _ _ Hmk) as (E1 & E2 & _). destruct (cv_fields _ _ _ _ _ _ Hmk') as (E1' & E2' & _).
  assert (group_choices c = group_choices c') as Hgc by (unfold group_choices; congruence).
  assert (exists G, nth_error (group_choices c) j = Some G) as (G & HG).
  { destruct (nth_error (group_choices c) j) eqn:E; [eauto|]. apply nth_error_None in E.
    assert (j < length ss) by (apply nth_error_Some; congruence). rewrite <- (Forall2_len _ _ _ HF) in H. lia. }
  destruct (Forall2_nth _ _ _ _ _ HF HG) as (sp & Hsp & HR). rewrite Hj in Hsp. inversion Hsp; subst sp.
  rewrite Hgc in HG.
  destruct (Forall2_nth _ _ _ _ _ HF' HG) as (sp & Hsp' & HR'). rewrite Hj' in Hsp'. inversion Hsp'; subst sp.
  destruct HR as (HR & _), HR' as (HR' & _). rewrite <- HR, <- HR', E1, E1'. reflexivity.
Qed.

Lemma c77_embargo_lost l groups tests emb emb' c c' ss ss' j train test train' test' : labelled l ->
  make_cv groups tests (Some (times_of l)) (Some (ends_of l)) emb = Ok c ->
  make_cv groups tests (Some (times_of l)) (Some (ends_of l)) emb' = Ok c' -> (groups <= Z.of_nat (length l))%Z ->
  split c (length l) = Ok ss -> split c' (length l) = Ok ss' ->
  nth_error ss j = Some (train, test) -> nth_error ss' j = Some (train', test') ->
  In (length l - 1) test -> (forall s e, maximal_block test s e -> length test <= e) ->
  test' = test /\ forall i, In i train <-> In i train'.
Proof.
  intros H Hc Hc' Hg Hs Hs' Hj Hj' Hlast Hend.
  assert (L1 : length (times_of l) = length l) by apply map_length.
  assert (L2 : length (ends_of l) = length l) by apply map_length.
  pose proof (labelled_proper l H) as [Hi He].
  assert (Hnd : non_decreasing (times_of l)) by now apply increasing_non_decreasing.
  assert (test' = test) as -> by exact (same_test _ _ _ _ _ _ _ _ _ _ _ _ _ _ _ _ Hc Hc' Hg L1 L2 Hnd Hs Hs' Hj Hj').
  split; [reflexivity|]. intros i.
  rewrite (c07 groups tests _ _ emb c Hc (length l) Hg L1 L2 Hnd ss train test Hs (nth_error_In _ _ Hj) i).
  rewrite (c07 groups tests _ _ emb' c' Hc' (length l) Hg L1 L2 Hnd ss' train' test Hs' (nth_error_In _ _ Hj') i).
  assert (Hoff : forall em, (0 <= em)%Z -> forall s e m, maximal_block test s e -> latest (ends_of l) (firstn e test) m ->
    ~ exists j x, nth_error (times_of l) j = Some x /\ (m + em < x)%Z).
  { intros em Hem s e m Hb [_ Hm] (k & x & Hk & Hx).
    rewrite firstn_all2 in Hm by (eapply Hend; exact Hb).
    destruct (nth_error l (length l - 1)) as [a|] eqn:Ea.
    2:{ apply nth_error_None in Ea. assert (length l = 0) by lia. destruct l; [|discriminate]. destruct k; discriminate. }
    assert (snd a <= m)%Z.
    { apply (Hm (length l - 1)); [exact Hlast|]. unfold ends_of. now rewrite nth_error_map, Ea. }
    assert (fst a <= snd a)%Z by (destruct a as [s0 e0]; apply He; eapply nth_error_In; exact Ea).
    assert (x <= fst a)%Z.
    { apply (Hnd k (length l - 1)); [|exact Hk|unfold times_of; now rewrite nth_error_map, Ea].
      assert (k < length l) by (rewrite <- L1; apply nth_error_Some; congruence). lia. }
    lia. }
  assert (E1 : (0 <= emb)%Z) by (apply make_cv_accepted in Hc; apply Hc).
  assert (E2 : (0 <= emb')%Z) by (apply make_cv_accepted in Hc'; apply Hc').
  split; intros (A & B & C); (split; [exact A|]); (split; [exact B|]); intros s e Hb; destruct (C s e Hb) as [C1 _]; (split; [exact C1|]);
    intros m Hm Hex; exfalso; [apply (Hoff emb' E2 s e m Hb Hm Hex)|apply (Hoff emb E1 s e m Hb Hm Hex)].
Qed.

Lemma c78_matrix l bars : labelled l -> 2 <= length l -> exists m idx, get_ind_matrix (complete l) bars = Ok (m, idx).
Proof. intros H. apply spans_accepted, labelled_proper, H. Qed.

Lemma c78_uniqueness l : labelled l -> 2 <= length l ->
  exists out, average_uniqueness_transform (map (fun s => (fst s, Some (snd s))) l) = Ok out /\
    map fst out = map fst l /\ forall t u, In (t, u) out -> exists q, u = Some q /\ (0 < q <= 1)%Q.
Proof. intros H. apply spans_uniqueness, labelled_proper, H. Qed.

Lemma c78_decay l (c : Q) : labelled l -> 2 <= length l -> (c <= 1)%Q ->
  exists out, decay_transform c (map (fun s => (fst s, Some (snd s))) l) = Ok out.
Proof.
  intros H Hl Hc. apply c21_error; [exact Hc|]. destruct (c78_uniqueness l H Hl) as (out & Ho & _). eauto.
Qed.
Lemma c78_returns l (close : list (ext R)) : labelled l -> 2 <= length l -> length close = length l ->
  exists out, returns_transform (map (fun r => {| w_start := fst (fst r); w_end := Some (snd (fst r)); w_close := snd r |}) (combine l close)) = Ok out.
Proof.
  intros H Hl Hc. apply c20_succeeds. rewrite !map_map. cbn [w_start w_end].
  assert (E1 : map (fun r : Z * Z * ext R => (Some (fst (fst r)), Some (snd (fst r)))) (combine l close) = complete l).
  { clear - Hc. unfold complete. revert close Hc. induction l as [|a l IH]; intros [|x close] Hc; cbn in *; try lia; [reflexivity|]. f_equal. apply IH. lia. }
  rewrite E1. destruct (c78_matrix l (map (fun r => fst (fst r)) (combine l close)) H Hl) as (m & idx & E). eauto.
Qed.

Lemma c78_one s e bars : (s <= e)%Z -> get_ind_matrix (complete [(s, e)]) bars = Err AssertionError.
Proof.
  intros H. apply c14_accept; [discriminate|]. intros [_ (t & s' & e' & Ht & [Hin|[]] & Hno)]. injection Hin as <- <-. apply Hno.
  destruct Ht as [(s' & e' & [Hin|[]] & Ht)|(Hb & (s1 & e1 & [H1|[]] & Hlo) & (s2 & e2 & [H2|[]] & Hhi))].
  - injection Hin as <- <-. lia.
  - injection H1 as <- <-. injection H2 as <- <-. lia.
Qed.
Lemma c78_few l : labelled l -> length l < 2 ->
  (forall bars, get_ind_matrix (complete l) bars = Err (match l with [] => ValueError | _ => AssertionError end)) /\
  average_uniqueness_transform (map (fun s => (fst s, Some (snd s))) l) = Err (match l with [] => ValueError | _ => AssertionError end) /\
  forall c, (c <= 1)%Q -> decay_transform c (map (fun s => (fst s, Some (snd s))) l) = Err (match l with [] => ValueError | _ => AssertionError end).
Proof.
  intros H Hl. pose proof (labelled_proper l H) as [_ He].
  assert (A : average_uniqueness_transform (map (fun s => (fst s, Some (snd s))) l) = Err (match l with [] => ValueError | _ => AssertionError end)).
  { destruct l as [|[s e] [|]]; cbn in Hl; try lia; [reflexivity|].
    unfold average_uniqueness_transform. cbn [existsb map fst snd orb has_dup].
    change (get_ind_matrix [(Some s, Some e)] [s]) with (get_ind_matrix (complete [(s, e)]) [s]).
    rewrite c78_one by (apply He; now left). reflexivity. }
  split; [|split; [exact A|]].
  - intros bars. destruct l as [|[s e] [|]]; cbn in Hl; try lia; [reflexivity|]. apply c78_one, He. now left.
  - intros c Hc. unfold decay_transform. apply Qle_bool_iff in Hc. rewrite Hc, A. reflexivity.
Qed.

(** * Bagging on labels *)
Lemma c79 (num gen est0 model : Type) (np : numpy gen) (est : estimator num gen est0 model) p jobs schedule (d : data num) self h l :
  0 < jobs -> libraries_fine np est -> labelled l -> 2 <= length l -> samples_info_sets p = complete l -> (0 < update_probs_every p)%Z ->
  length (d_index num d) = length (d_rows num d) -> Forall (fun row => length row = d_width num d) (d_rows num d) ->
  (d_weight num d <> None -> support_sample_weight num gen est0 model est = true) -> oob_score p = false ->
  acceptable p d self h -> exists h' a, fit num gen est0 model np est p jobs schedule d self h = Ok (h', a).
Proof.
  intros Hj Hlib Hl H2 Hp Hu Hi Hr Hw Ho Ha.
  destruct (c78_matrix l (price_bars p) Hl H2) as (m & idx & E).
  eapply c52_proceeds; try eassumption. apply increasingZ_NoDup, labelled_proper, Hl.
Qed.

Lemma c79_oob (num gen est0 model : Type) (np : numpy gen) (est : estimator num gen est0 model) p jobs schedule (d : data num) self h l :
  0 < jobs -> libraries_fine np est -> labelled l -> 2 <= length l -> samples_info_sets p = complete l -> (0 < update_probs_every p)%Z ->
  length (d_index num d) = length (d_rows num d) -> Forall (fun row => length row = d_width num d) (d_rows num d) ->
  (d_weight num d <> None -> support_sample_weight num gen est0 model est = true) -> oob_score p = true -> acceptable p d self h ->
  exists h1 a1 ts, fit num gen est0 model np est (with_oob p false) jobs schedule d self h = Ok (h1, a1) /\ ensemble model a1 = Some ts /\
    (scores_rows est (n_classes model a1) ->
     (forall t, In t ts -> exists i, i < length (d_rows num d) /\ ~ In i (t_samples model t)) ->
     exists h' a, fit num gen est0 model np est p jobs schedule d self h = Ok (h', a) /\ ensemble model a = Some ts).
Proof.
  intros Hj Hlib Hl H2 Hp Hu Hi Hr Hw Ho Ha.
  destruct (c78_matrix l (price_bars p) Hl H2) as (m & idx & E).
  destruct (c52_oob np est p jobs schedule d self h l m idx) as (h1 & a1 & ts & A & B & C); try assumption; [apply increasingZ_NoDup, labelled_proper, Hl|].
  exists h1, a1, ts. split; [exact A|]. split; [exact B|]. intros Hs. apply C, Hs.
Qed.

(** * CUSUM events and the trend scanner *)
Lemma c80 inv junk cfg (h : Q) (X : list (Z * ext Q)) (y : list (Z * R)) events :
  inv_sound inv -> inv_complete 2 inv -> t_step cfg = 1 -> 3 <= t_min cfg < t_window cfg ->
  increasingZ (map fst y) -> map fst X = map fst y -> cusum_transform h X = Ok events ->
  (forall e, snd (Trend_Model.transform inv junk cfg (Some events) y) = Err e -> e = ZeroDivisionError) /\
  (forall rows, snd (Trend_Model.transform inv junk cfg (Some events) y) = Ok rows ->
     Forall2 (row_ok cfg y) events rows /\ map tr_start rows = events /\ labelled (trend_spans rows)).
Proof.
  intros Hs Hc Hst Hm Hi HX Hcu.
  assert (Hsub : subseq events (map fst y)).
  { rewrite <- HX. apply c23_first in Hcu. destruct Hcu as [Hcu _]. eapply subseq_trans; [exact Hcu|].
    destruct (map fst X); [apply subseq_refl|]. cbn. apply sub_skip, subseq_refl. }
  assert (Hinc : incl events (map fst y)) by (intros t Ht; eapply subseq_in; eassumption).
  split.
  - apply (c32_defined inv Hs Hc cfg Hst Hm junk (Some events) y Hi Hinc).
  - intros rows Hrows. split; [exact (c32 inv Hs Hc cfg Hst Hm junk (Some events) y rows Hi Hrows)|]. split.
    + apply (trend_rows inv junk cfg (Some events) y rows); auto. lia.
    + apply (by_trends inv junk cfg (Some events) y rows); auto; [|lia]. intros ev E. injection E as <-. eapply subseq_sorted; eassumption.
Qed.

Definition flow_y : list (Z * R) := [(10%Z, 5%R); (20%Z, 3%R); (30%Z, 2%R); (40%Z, 2%R); (50%Z, 2%R); (60%Z, 7%R)].
Lemma flow_trends junk : exists rows,
  snd (Trend_Model.transform inv_small junk {| t_window := 4; t_min := 3; t_step := 1 |} (Some [20; 60]%Z) flow_y) = Ok rows.
Proof.
  set (cfg := {| t_window := 4; t_min := 3; t_step := 1 |}).
  assert (Hm : 3 <= t_min cfg < t_window cfg) by (cbn; lia).
  assert (Hi : increasingZ (map fst flow_y)) by (unfold increasingZ; cbn; repeat constructor; lia).
  destruct (c32_defined inv_small inv_small_sound inv_small_complete_2 cfg eq_refl Hm junk (Some [20; 60]%Z) flow_y Hi) as [[_ H] _].
  { intros z [<-|[<-|[]]]; cbn; auto 10. }
  apply H. intros t k p0 w Ht Hk Hl Hw. cbn in Hl, Hw. assert (w = 3) as -> by lia.
  destruct Ht as [<-|[<-|[]]]; destruct k as [|[|[|k]]]; cbn in Hk; try discriminate; [|lia|lia].
  apply bent_not_straight; [lia|]. unfold price. cbn. lra.
Qed.
