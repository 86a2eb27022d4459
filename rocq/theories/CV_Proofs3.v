(** Proofs about the cross-validation model: the lemmas behind the property theorems. *)
From Coq Require Import Sorting.Sorted Permutation.
From Verif Require Import PreludeFacts CV_Spec CV_Model CV_Proofs CV_Proofs2.
From Coq Require Import ZifyBool ZifyNat.

Lemma block_right (T : list nat) s : In s T -> exists e, s < e /\ (forall i, s <= i < e -> In i T) /\ ~ In e T.
Proof.
  intros Hs.
  assert (exists b, forall x, In x T -> x < b) as (b & Hb).
  { exists (S (list_max T)). intros x Hx. pose proof (proj1 (list_max_le T (list_max T)) (Nat.le_refl _)) as Hm.
    rewrite Forall_forall in Hm. specialize (Hm x Hx). lia. }
  pose proof (Hb s Hs) as Hsb.
  assert (forall d s', b - s' <= d -> In s' T -> exists e, s' < e /\ (forall i, s' <= i < e -> In i T) /\ ~ In e T) as H.
  { induction d as [|d IH]; intros s' Hd Hs'.
    - specialize (Hb s' Hs'). lia.
    - destruct (in_dec Nat.eq_dec (S s') T) as [Hin|Hni].
      + destruct (IH (S s') ltac:(lia) Hin) as (e & He & Hall & Hne). exists e. split; [lia|split; [|exact Hne]].
        intros i Hi. destruct (Nat.eq_dec i s') as [->|]; [exact Hs'|]. apply Hall. lia.
      + exists (S s'). split; [lia|split; [|exact Hni]]. intros i Hi. replace i with s' by lia. exact Hs'. }
  apply (H (b - s) s (Nat.le_refl _) Hs).
Qed.

Lemma block_left (T : list nat) s : In s T -> exists s0, s0 <= s /\ (forall i, s0 <= i <= s -> In i T) /\ (forall p, S p = s0 -> ~ In p T).
Proof.
  induction s as [|s IH]; intros Hs.
  - exists 0. split; [lia|split; [|intros; lia]]. intros i Hi. replace i with 0 by lia. exact Hs.
  - destruct (in_dec Nat.eq_dec s T) as [Hin|Hni].
    + destruct (IH Hin) as (s0 & Hle & Hall & Hp). exists s0. split; [lia|split; [|exact Hp]].
      intros i Hi. destruct (Nat.eq_dec i (S s)) as [->|]; [exact Hs|]. apply Hall. lia.
    + exists (S s). split; [lia|split].
      * intros i Hi. replace i with (S s) by lia. exact Hs.
      * intros p Hp. inversion Hp; subst. exact Hni.
Qed.

Lemma block_around (T : list nat) s : In s T -> exists s0 e, maximal_block T s0 e /\ s0 <= s < e.
Proof.
  intros Hs. destruct (block_right T s Hs) as (e & He & Hall & Hne).
  destruct (block_left T s Hs) as (s0 & Hle & Hall0 & Hp).
  exists s0, e. split; [|lia]. split; [lia|split; [|split; assumption]].
  intros i Hi. destruct (Nat.le_gt_cases i s); [apply Hall0; lia | apply Hall; lia].
Qed.

Lemma increasing_head_lt T : increasing T -> forall e i, In i T -> i < e -> In i (firstn e T).
Proof.
  intros H. induction H as [|a l Hs IH Hf]; intros e i Hi Hie; [destruct Hi|].
  destruct e as [|e]; [lia|]. simpl. rewrite Forall_forall in Hf.
  destruct Hi as [->|Hi]; [now left|]. right.
  (* elements of l are > a >= 0, so shift by one *)
  assert (forall l, StronglySorted lt l -> forall b, (forall x, In x l -> b <= x) -> forall e i, In i l -> i < e + b -> In i (firstn e l)) as Hgen.
  { clear. induction 1 as [|a l Hs IH Hf]; intros b Hb e i Hi Hie; [destruct Hi|].
    rewrite Forall_forall in Hf. pose proof (Hb a (or_introl eq_refl)).
    destruct e as [|e].
    - exfalso. pose proof (Hb i Hi). lia.
    - simpl. destruct Hi as [->|Hi]; [now left|]. right. apply (IH (S b)); auto; [|lia].
      intros x Hx. specialize (Hf x Hx). lia. }
  apply (Hgen l Hs 1); auto; [|lia]. intros x Hx. specialize (Hf x Hx). lia.
Qed.

Section SplitFacts.
  Variables (groups tests : Z) (pred : list Z) (ev : list (option Z)) (emb : Z) (c : cv).
  Hypothesis Hmk : make_cv groups tests (Some pred) (Some ev) emb = Ok c.

  Lemma cv_fields : n_groups c = Z.to_nat groups /\ n_test_splits c = Z.to_nat tests /\
    pred_times c = pred /\ eval_times c = ev /\ embargo_td c = emb /\ (1 <= tests <= groups - 1)%Z /\ (0 <= emb)%Z.
  Proof.
    pose proof (make_cv_inv _ _ _ _ _ _ Hmk) as (H1 & H2 & H3 & H4 & H5 & H6 & H7 & _).
    inversion H5. inversion H6. repeat split; auto; lia.
  Qed.

  Variable n : nat.
  Hypothesis Hn : (groups <= Z.of_nat n)%Z.
  Hypothesis Hp : length pred = n.
  Hypothesis He : length ev = n.
  Hypothesis Hs : non_decreasing pred.

  Lemma cv_data : data_ok c n.
  Proof. destruct cv_fields as (_ & _ & H1 & H2 & _). unfold data_ok. rewrite H1, H2. auto. Qed.
  Lemma cv_params : params_ok c n.
  Proof. eapply make_cv_params; eauto. Qed.

  Lemma split_total : exists ss, split c n = Ok ss /\ Forall2 (split_rel c n) (group_choices c) ss.
  Proof. apply split_ok; [apply cv_params|apply cv_data]. Qed.

  Lemma split_elem ss sp : split c n = Ok ss -> In sp ss -> exists G, group_choice (n_groups c) (n_test_splits c) G /\ split_rel c n G sp.
  Proof.
    intros Hss Hsp. destruct split_total as (ss' & Hss' & HF). rewrite Hss in Hss'. inversion Hss'; subst ss'.
    destruct (Forall2_In_r _ _ _ _ HF Hsp) as (G & HG & HR). exists G. split; [now apply group_choices_In|exact HR].
  Qed.

  Lemma samples_of_groups_iff G T : increasing T ->
    (forall g, In g G -> g < n_groups c) ->
    (forall i, In i T <-> in_groups n (n_groups c) G i) ->
    samples_of_groups (map (gbound n (n_groups c)) (seq 0 (n_groups c))) G T.
  Proof.
    intros Hi HG HT. split; [exact Hi|]. intros i. rewrite HT. unfold in_groups. split.
    - intros (g & Hg & Hr). exists g, (gstart n (n_groups c) g), (gstart n (n_groups c) (S g)).
      split; [exact Hg|split; [|exact Hr]]. apply nth_error_gbounds. auto.
    - intros (g & s & e & Hg & Hnth & Hr). apply nth_error_gbounds in Hnth. destruct Hnth as [_ Hb].
      injection Hb as -> ->. exists g. auto.
  Qed.

  Lemma samples_of_groups_unique b G T T' : samples_of_groups b G T -> samples_of_groups b G T' -> T = T'.
  Proof.
    intros [H1 H2] [H3 H4]. apply increasing_ext; auto. intros i. rewrite H2, H4. tauto.
  Qed.

  Lemma c02 : exists ss bounds, split c n = Ok ss /\ fold_bounds c n = Ok bounds /\
      length ss = choose (Z.to_nat groups) (Z.to_nat tests) /\
      NoDup (map snd ss) /\
      (forall T, In T (map snd ss) <->
         exists G, group_choice (Z.to_nat groups) (Z.to_nat tests) G /\ samples_of_groups bounds G T) /\
      (exists train T, nth_error ss 0 = Some (train, T) /\
         samples_of_groups bounds (seq (Z.to_nat groups - Z.to_nat tests) (Z.to_nat tests)) T) /\
      ((Z.of_nat (choose (Z.to_nat groups) (Z.to_nat tests)) < 2 ^ 53)%Z ->
         n_splits c = Z.of_nat (length ss)).
  Proof.
    destruct split_total as (ss & Hss & HF). destruct cv_fields as (E1 & E2 & _).
    destruct cv_params as (P1 & P2 & P3).
    exists ss, (map (gbound n (n_groups c)) (seq 0 (n_groups c))).
    split; [exact Hss|split]; [apply fold_bounds_ok; lia|].
    assert (length ss = choose (Z.to_nat groups) (Z.to_nat tests)) as Hlen.
    { rewrite <- (Forall2_len _ _ _ HF), group_choices_length, E1, E2. reflexivity. }
    split; [exact Hlen|split].
    { apply (test_sets_NoDup c n (group_choices c) ss); auto; try lia.
      - intros G HG. apply group_choices_In in HG. apply HG.
      - apply group_choices_NoDup. }
    split; [|split].
    - intros T. rewrite <- E1, <- E2. split.
      + intros HT. apply in_map_iff in HT. destruct HT as ([tr te] & <- & Hin). simpl.
        destruct (split_elem ss _ Hss Hin) as (G & HG & HR). exists G. split; [exact HG|].
        destruct HR as (_ & Hi & Ht & _). apply samples_of_groups_iff; auto. apply HG.
      + intros (G & HG & HT). apply group_choices_In in HG.
        destruct (Forall2_In_l _ _ _ _ HF HG) as ([tr te] & Hin & HR). apply in_map_iff. exists (tr, te).
        split; [|exact Hin]. simpl. destruct HR as (_ & Hi & Ht & _).
        apply (samples_of_groups_unique (map (gbound n (n_groups c)) (seq 0 (n_groups c))) G); [|exact HT].
        apply samples_of_groups_iff; auto. apply group_choices_In in HG. apply HG.
    - assert (exists Gs, group_choices c = seq (n_groups c - n_test_splits c) (n_test_splits c) :: Gs) as (Gs & HGs).
      { unfold group_choices. destruct (combinations_last (n_test_splits c) (seq 0 (n_groups c))) as (r & Hr).
        - rewrite seq_length. lia.
        - rewrite Hr, rev_app_distr, seq_length, skipn_seq. simpl.
          replace (n_groups c - (n_groups c - n_test_splits c)) with (n_test_splits c) by lia. eauto. }
      rewrite HGs in HF. inversion HF as [|G [tr te] Gs' ss' HR HF' EQ1 EQ2]; subst ss G Gs'.
      exists tr, te. split; [reflexivity|]. rewrite <- E1, <- E2.
      destruct HR as (_ & Hi & Ht & _). apply samples_of_groups_iff; auto.
      intros g Hg. apply in_seq in Hg. lia.
    - intros Hlt. rewrite Hlen, <- E1, <- E2. eapply n_splits_exact; eauto. rewrite E1, E2. exact Hlt.
  Qed.

  Lemma c03 : exists ss, split c n = Ok ss /\ forall i, i < n ->
    length (filter (fun sp => mem i (snd sp)) ss) = choose (Z.to_nat groups - 1) (Z.to_nat tests - 1).
  Proof.
    destruct split_total as (ss & Hss & HF). destruct cv_fields as (E1 & E2 & _).
    destruct cv_params as (P1 & P2 & P3). exists ss. split; [exact Hss|]. intros i Hi.
    destruct (group_exists n (n_groups c) i ltac:(lia) P3 Hi) as (g & Hg & Hr).
    rewrite (count_splits c n (group_choices c) ss i g); auto; [|lia].
    rewrite group_choices_count by auto. now rewrite E1, E2.
  Qed.

  Lemma c04 : exists ss, split c n = Ok ss /\ forall train test, In (train, test) ss ->
    increasing test /\ (forall i, In i train -> i < n /\ ~ In i test) /\ (forall i, In i test -> i < n) /\
    (ends_after_start pred ev -> increasing train).
  Proof.
    destruct split_total as (ss & Hss & HF). exists ss. split; [exact Hss|]. intros train test Hin.
    destruct (split_elem ss _ Hss Hin) as (G & HG & (_ & R1 & R2 & R3 & R4)).
    destruct cv_fields as (_ & _ & E3 & E4 & _). rewrite E3, E4 in R4.
    split; [exact R1|split; [|split; [|exact R4]]].
    - intros i Hi. apply R3 in Hi. tauto.
    - intros i Hi. apply R2 in Hi. destruct cv_params as (P1 & P2 & P3).
      apply (test_set_lt n (n_groups c) G i); auto; try lia. apply HG.
  Qed.

  Lemma c07 ss train test : split c n = Ok ss -> In (train, test) ss -> forall i,
    In i train <->
      i < n /\ ~ In i test /\
      (forall s e, maximal_block test s e ->
         (* purge: the label ends before the block starts, or the sample comes after the block *)
         (e <= i \/ exists t0 y, nth_error pred s = Some t0 /\ nth_error ev i = Some (Some y) /\ (y < t0)%Z) /\
         (* embargo *)
         (forall m, latest ev (firstn e test) m ->
            (exists j x, nth_error pred j = Some x /\ (m + emb < x)%Z) ->
            i < e \/ exists x, nth_error pred i = Some x /\ (m + emb < x)%Z)).
  Proof.
    intros Hss Hin i. destruct (split_elem ss _ Hss Hin) as (G & HG & (_ & R1 & R2 & R3 & R4)).
    rewrite R3. destruct cv_fields as (_ & _ & E3 & E4 & E5 & _).
    unfold purge_pred, embargo_pred. rewrite E3, E4, E5. tauto.
  Qed.

  Lemma c05 ss train test : split c n = Ok ss -> In (train, test) ss ->
    forall t s, In t train -> In s test -> t < s ->
    exists y x, nth_error ev t = Some (Some y) /\ nth_error pred s = Some x /\ (y < x)%Z.
  Proof.
    intros Hss Hin t s Ht Hts Hlt. apply (c07 ss train test Hss Hin) in Ht. destruct Ht as (Htn & Htt & Hall).
    destruct (block_around test s Hts) as (s0 & e & Hb & Hse).
    destruct (Hall s0 e Hb) as [[Hpe|(t0 & y & Ht0 & Hy & Hyt)] _]; [lia|].
    destruct c04 as (ss' & Hss' & H4). rewrite Hss in Hss'. inversion Hss'; subst ss'.
    destruct (H4 train test Hin) as (_ & _ & Htest & _). specialize (Htest s Hts).
    destruct (nth_error pred s) as [x|] eqn:Ex; [|apply nth_error_None in Ex; lia].
    exists y, x. split; [exact Hy|split; [reflexivity|]].
    pose proof (Hs s0 s t0 x ltac:(lia) Ht0 Ex). lia.
  Qed.

  Lemma latest_exists l i y : In i l -> nth_error ev i = Some (Some y) -> exists m, latest ev l m /\ (y <= m)%Z.
  Proof.
    revert i y. induction l as [|a l IH]; intros i y Hi Hy; [destruct Hi|].
    assert (forall m, (latest ev l m -> exists m', latest ev (a :: l) m' /\ (m <= m')%Z)) as Hext.
    { intros m [(j & Hj & Hm) Hub].
      destruct (nth_error ev a) as [[ya|]|] eqn:Ea.
      - exists (Z.max m ya). split; [|lia]. split.
        + destruct (Z.max_spec m ya) as [[_ ->]|[_ ->]]; [exists a|exists j]; auto with datatypes.
        + intros i' y' [<-|Hi'] Hy'; [rewrite Ea in Hy'; inversion Hy'; lia|]. specialize (Hub _ _ Hi' Hy'). lia.
      - exists m. split; [|lia]. split; [exists j; auto with datatypes|].
        intros i' y' [<-|Hi'] Hy'; [congruence|]. eauto.
      - exists m. split; [|lia]. split; [exists j; auto with datatypes|].
        intros i' y' [<-|Hi'] Hy'; [congruence|]. eauto. }
    destruct Hi as [->|Hi].
    - assert ((exists m, latest ev l m) \/ forall j z, In j l -> nth_error ev j = Some (Some z) -> False) as [[m Hm]|Hno].
      { clear - IH. assert ((exists j z, In j l /\ nth_error ev j = Some (Some z)) \/ forall j z, In j l -> nth_error ev j = Some (Some z) -> False) as [(j & z & Hj & Hz)|H].
        - clear IH. induction l as [|b l IHl]; [right; intros j z []|]. destruct IHl as [(j & z & Hj & Hz)|Hn].
          + left. exists j, z. auto with datatypes.
          + destruct (nth_error ev b) as [[z|]|] eqn:Eb.
            * left. exists b, z. auto with datatypes.
            * right. intros j z [<-|Hj] Hz; [congruence|eauto].
            * right. intros j z [<-|Hj] Hz; [congruence|eauto].
        - left. destruct (IH j z Hj Hz) as (m & Hm & _). eauto.
        - right. exact H. }
      + destruct (Hext m Hm) as (m' & Hm' & _). exists m'. split; [exact Hm'|]. destruct Hm' as [_ Hub]. eapply Hub; eauto with datatypes.
      + exists y. split; [|lia]. split; [exists i; auto with datatypes|].
        intros j z [<-|Hj] Hz; [rewrite Hy in Hz; inversion Hz; lia|]. exfalso. eauto.
    - destruct (IH i y Hi Hy) as (m & Hm & Hle). destruct (Hext m Hm) as (m' & Hm' & Hle'). exists m'. split; [exact Hm'|lia].
  Qed.

  Lemma c06 ss train test : split c n = Ok ss -> In (train, test) ss ->
    (exists j x, nth_error pred j = Some x /\ forall i y, In i test -> nth_error ev i = Some (Some y) -> (y + emb < x)%Z) ->
    forall t s y x, In t train -> In s test -> s < t ->
    nth_error ev s = Some (Some y) -> nth_error pred t = Some x -> (y + emb < x)%Z.
  Proof.
    intros Hss Hin (j & xj & Hj & Hjall) t s y x Ht Hts Hlt Hy Hx.
    apply (c07 ss train test Hss Hin) in Ht. destruct Ht as (Htn & Htt & Hall).
    destruct (block_around test s Hts) as (s0 & e & Hb & Hse).
    destruct (Hall s0 e Hb) as [_ Hemb].
    destruct c04 as (ss' & Hss' & H4). rewrite Hss in Hss'. inversion Hss'; subst ss'.
    destruct (H4 train test Hin) as (Hinc & _).
    assert (In s (firstn e test)) as Hsf by (apply increasing_head_lt; auto; lia).
    destruct (latest_exists _ _ _ Hsf Hy) as (m & Hm & Hym).
    destruct (Hemb m Hm) as [Hte|(x' & Hx' & Hlt')].
    - exists j, xj. split; [exact Hj|]. destruct Hm as [(i & Hi & Hmi) _].
      apply (Hjall i m); auto. rewrite <- (firstn_skipn e test). apply in_or_app. now left.
    - (* t < e would put t inside the block *)
      exfalso. apply Htt. destruct Hb as (_ & Hall' & _). apply Hall'. lia.
    - rewrite Hx in Hx'. injection Hx' as ->. lia.
  Qed.
End SplitFacts.

(** Two embargo lengths on the same data. *)
Lemma c08 groups tests pred ev emb emb' c c' n ss ss' j train test train' test' :
  make_cv groups tests (Some pred) (Some ev) emb = Ok c ->
  make_cv groups tests (Some pred) (Some ev) emb' = Ok c' ->
  (groups <= Z.of_nat n)%Z -> length pred = n -> length ev = n -> non_decreasing pred ->
  (emb <= emb')%Z ->
  split c n = Ok ss -> split c' n = Ok ss' ->
  nth_error ss j = Some (train, test) -> nth_error ss' j = Some (train', test') ->
  (exists k x, nth_error pred k = Some x /\ forall i y, In i test -> nth_error ev i = Some (Some y) -> (y + emb' < x)%Z) ->
  test' = test /\ forall i, In i train' -> In i train.
Proof.
  intros Hmk Hmk' Hn Hp He Hs Hle Hss Hss' Hj Hj' (k & xk & Hk & Hkall).
  destruct (split_total _ _ _ _ _ _ Hmk n Hn Hp He Hs) as (s1 & H1 & HF). rewrite Hss in H1. inversion H1; subst s1.
  destruct (split_total _ _ _ _ _ _ Hmk' n Hn Hp He Hs) as (s2 & H2 & HF'). rewrite Hss' in H2. inversion H2; subst s2.
  destruct (cv_fields _ _ _ _ _ _ Hmk) as (E1 & E2 & _). destruct (cv_fields _ _ _ _ _ _ Hmk') as (E1' & E2' & _).
  assert (test' = test) as ->.
  { assert (group_choices c = group_choices c') as Hgc by (unfold group_choices; congruence).
    assert (exists G, nth_error (group_choices c) j = Some G) as (G & HG).
    { destruct (nth_error (group_choices c) j) eqn:E; [eauto|]. apply nth_error_None in E.
      assert (j < length ss) by (apply nth_error_Some; congruence). rewrite <- (Forall2_len _ _ _ HF) in H. lia. }
    destruct (Forall2_nth _ _ _ _ _ HF HG) as (sp & Hsp & HR). rewrite Hj in Hsp. inversion Hsp; subst sp.
    rewrite Hgc in HG.
    destruct (Forall2_nth _ _ _ _ _ HF' HG) as (sp & Hsp' & HR'). rewrite Hj' in Hsp'. inversion Hsp'; subst sp.
    destruct HR as (HR & _), HR' as (HR' & _). rewrite <- HR, <- HR', E1, E1'. reflexivity. }
  split; [reflexivity|]. intros i Hi.
  apply (c07 _ _ _ _ _ _ Hmk n Hn Hp He Hs ss train test Hss (nth_error_In _ _ Hj)).
  apply (c07 _ _ _ _ _ _ Hmk' n Hn Hp He Hs ss' train' test Hss' (nth_error_In _ _ Hj')) in Hi.
  destruct Hi as (Hin & Hit & Hall). split; [exact Hin|split; [exact Hit|]].
  intros s e Hb. destruct (Hall s e Hb) as [Hpg Hem]. split; [exact Hpg|].
  intros m Hm _. destruct (Hem m Hm) as [Hlt|(x & Hx & Hlt)].
  - exists k, xk. split; [exact Hk|]. destruct Hm as [(i' & Hi' & Hmi) _].
    apply (Hkall i' m); auto. rewrite <- (firstn_skipn e test). apply in_or_app. now left.
  - now left.
  - right. exists x. split; [exact Hx|lia].
Qed.

Lemma fold_bounds_total c n : n_groups c <> 0 ->
  if Nat.ltb n (n_groups c) then fold_bounds c n = Err IndexError /\ split c n = Err IndexError
  else exists bounds, fold_bounds c n = Ok bounds.
Proof.
  intros H. destruct (Nat.ltb_spec n (n_groups c)).
  - split; [now apply fold_bounds_small|]. unfold split, test_fold_bounds. now rewrite fold_bounds_small.
  - eexists. apply fold_bounds_ok; auto.
Qed.

Lemma fold_bounds_partition c n bounds : fold_bounds c n = Ok bounds -> near_equal_partition n (n_groups c) bounds.
Proof.
  intros H. destruct (Nat.eq_dec (n_groups c) 0) as [E|E].
  - unfold fold_bounds, array_split in H. rewrite E in H. discriminate.
  - destruct (Nat.lt_ge_cases n (n_groups c)) as [Hl|Hl].
    + rewrite fold_bounds_small in H by exact Hl. discriminate.
    + rewrite fold_bounds_ok in H by auto. inversion H. now apply gbounds_partition.
Qed.

Lemma make_cv_accepted groups tests p e emb c : make_cv groups tests p e emb = Ok c ->
  (1 <= tests <= groups - 1)%Z /\ (0 <= emb)%Z /\
  n_groups c = Z.to_nat groups /\ n_test_splits c = Z.to_nat tests /\
  p = Some (pred_times c) /\ e = Some (eval_times c) /\ embargo_td c = emb.
Proof. intros H. apply make_cv_inv in H. tauto. Qed.

Lemma make_cv_valid groups tests p e emb : (1 <= tests <= groups - 1)%Z -> (0 <= emb)%Z ->
  (exists c, make_cv groups tests (Some p) (Some e) emb = Ok c) \/
  (make_cv groups tests (Some p) (Some e) emb = Err OverflowError /\
   (2 ^ 53 <= Z.of_nat (choose (Z.to_nat groups) (Z.to_nat tests)))%Z).
Proof.
  intros Ht He.
  destruct (int_truediv (factZ (Z.to_nat groups)) (factZ (Z.to_nat tests) * factZ (Z.to_nat groups - Z.to_nat tests))) as [ns|x] eqn:E.
  - left. apply make_cv_accepts; eauto.
  - right. assert (2 ^ 53 <= Z.of_nat (choose (Z.to_nat groups) (Z.to_nat tests)))%Z as Hbig.
    { destruct (Z.lt_ge_cases (Z.of_nat (choose (Z.to_nat groups) (Z.to_nat tests))) (2 ^ 53)) as [Hs|Hs]; [|exact Hs].
      exfalso. destruct (choose_fact_div (Z.to_nat groups) (Z.to_nat tests) ltac:(lia)) as [_ Hf].
      pose proof (factZ_pos (Z.to_nat tests)). pose proof (factZ_pos (Z.to_nat groups - Z.to_nat tests)).
      pose proof (choose_pos (Z.to_nat groups) (Z.to_nat tests) ltac:(lia)).
      rewrite (int_truediv_exact _ _ (Z.of_nat (choose (Z.to_nat groups) (Z.to_nat tests)))) in E; [discriminate|nia|lia|lia|lia]. }
    split; [|exact Hbig]. unfold make_cv, factorial.
    destruct (Z.ltb_spec groups 0); [lia|]. destruct (Z.ltb_spec tests 0); [lia|].
    destruct (Z.ltb_spec (groups - tests) 0); [lia|]. cbn [bind].
    replace (Z.to_nat groups - Z.to_nat tests) with (Z.to_nat (groups - tests)) in E by lia.
    rewrite E. cbn [bind]. f_equal.
    unfold int_truediv in E. destruct (_ =? 0)%Z in E; [discriminate|]. cbv zeta in E.
    match type of E with (if ?b then _ else _) = _ => destruct b end; inversion E; auto.
Qed.

Lemma c11_ok groups tests pred ev emb c n :
  make_cv groups tests (Some pred) (Some ev) emb = Ok c ->
  (groups <= Z.of_nat n)%Z -> length pred = n -> length ev = n -> non_decreasing pred ->
  forall shuf, (forall p k l, Permutation (shuf p k l) l) ->
  (groups < 2 ^ 53)%Z -> tests = 1%Z \/ tests = (groups - 1)%Z ->
  exists ss paths, split c n = Ok ss /\ cv_paths c n shuf = Ok paths /\
    length paths = choose (Z.to_nat groups - 1) (Z.to_nat tests - 1) /\
    (forall path, In path paths -> Permutation (map snd (path_predictions path)) (seq 0 n)) /\
    NoDup (flat_map path_predictions paths) /\
    (forall j i, In (j, i) (flat_map path_predictions paths) <->
       exists train test, nth_error ss j = Some (train, test) /\ In i test).
Proof.
  intros Hmk Hn Hp He Hs shuf Hsh Hsm Hk.
  destruct (cv_fields _ _ _ _ _ _ Hmk) as (E1 & E2 & _ & _ & _ & E3 & _). rewrite <- E1, <- E2.
  eapply cv_paths_ok; eauto.
  - eapply cv_data; eauto.
  - rewrite E1. lia.
  - rewrite E1, E2. lia.
Qed.

Lemma c11_fail groups tests pred ev emb c n :
  make_cv groups tests (Some pred) (Some ev) emb = Ok c ->
  (groups <= Z.of_nat n)%Z -> length pred = n -> length ev = n -> non_decreasing pred ->
  forall shuf, (forall p k l, Permutation (shuf p k l) l) ->
  (Z.of_nat (choose (Z.to_nat groups) (Z.to_nat tests)) < 2 ^ 53)%Z ->
  (2 <= tests <= groups - 2)%Z ->
  cv_paths c n shuf = Err IndexError \/ cv_paths c n shuf = Err OverflowError.
Proof.
  intros Hmk Hn Hp He Hs shuf Hsh Hsm Hk.
  destruct (cv_fields _ _ _ _ _ _ Hmk) as (E1 & E2 & _ & _ & _ & E3 & _). rewrite <- E1, <- E2 in Hsm.
  eapply cv_paths_fail; eauto.
  - eapply cv_data; eauto.
  - rewrite E2. lia.
  - rewrite E1, E2. lia.
Qed.
