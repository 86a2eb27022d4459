(** Proofs about fit as a whole: C50, C52, C67. *)
From Verif Require Import PreludeFacts QSum QSumFacts Num Boot_Model Boot_Spec Boot_Proofs Boot_Proofs2 Bag_Model Bag_Spec Bag_Proofs Bag_Proofs2 Bag_Proofs3.

Lemma count_sum l n : Forall (fun i => i < n) l -> list_sum (map (count_occ Nat.eq_dec l) (seq 0 n)) = length l.
Proof.
  induction 1 as [|x l Hx H IH].
  - cbn [length]. induction (seq 0 n) as [|i is IHi]; [reflexivity|]. cbn [map]. change (list_sum (?a :: ?b)) with (a + list_sum b). now rewrite IHi.
  - cbn [length]. rewrite <- IH. clear IH H.
    assert (E : forall s k, s <= x < s + k -> list_sum (map (count_occ Nat.eq_dec (x :: l)) (seq s k)) = S (list_sum (map (count_occ Nat.eq_dec l) (seq s k)))).
    { intros s k. revert s. induction k as [|k IHk]; intros s Hs; [lia|]. cbn [seq map]. change (list_sum (?a :: ?b)) with (a + list_sum b).
      destruct (Nat.eq_dec x s) as [->|Hn].
      - rewrite (count_occ_cons_eq _ _ eq_refl). replace (map (count_occ Nat.eq_dec (s :: l)) (seq (S s) k)) with (map (count_occ Nat.eq_dec l) (seq (S s) k)); [reflexivity|].
        apply map_ext_in. intros i Hi. apply in_seq in Hi. rewrite count_occ_cons_neq by lia. reflexivity.
      - rewrite (count_occ_cons_neq _ _ Hn), IHk by lia. lia. }
    apply E. lia.
Qed.

Section Proofs.
  Context {num gen est0 model : Type}.
  Variables (np : numpy gen) (est : estimator num gen est0 model).
  Notation trained := (trained model).
  Notation job := (job num).
  Notation fit := (fit num gen est0 model np est).

  Lemma prepare_inv p (d : data num) (self : attributes model) h j nc old k : prepare p d self h = Ok (j, nc, old, k) ->
    exists m idx classes y ms mf,
      get_ind_matrix (samples_info_sets p) (price_bars p) = Ok (m, idx) /\
      forallb (fun t => existsb (fun e : option Z * nat => match fst e with Some s => Z.eqb s t | None => false end) (index_mapping (samples_info_sets p) (ncols m))) (d_index _ d) = true /\
      0 < length (d_rows _ d) /\ 0 < d_width _ d /\ length (d_rows _ d) = length (d_labels _ d) /\
      (forall a, d_weight _ d = Some a -> exists w, nth_error h a = Some w /\ length w = length (d_rows _ d)) /\
      validate_y (d_labels _ d) = (classes, y) /\ (0 < n_estimators p)%Z /\
      check_max_samples (max_samples p) (length (d_rows _ d)) = Ok ms /\ check_max_features (max_features p) (d_width _ d) = Ok mf /\
      warm_start p && oob_score p = false /\
      old = (if warm_start p then match ensemble _ self with Some ts => ts | None => [] end else []) /\
      (0 <= n_estimators p - Z.of_nat (length old))%Z /\ k = Z.to_nat (n_estimators p - Z.of_nat (length old)) /\ nc = length classes /\
      j = {| j_X := d_rows _ d; j_y := y; j_n_features := d_width _ d; j_ind_mat := select_columns m (locate (index_mapping (samples_info_sets p) (ncols m)) (d_index _ d));
             j_weight := d_weight _ d; j_max_features := mf; j_max_samples := ms; j_bootstrap_features := bootstrap_features p; j_every := update_probs_every p |}.
  Proof.
    unfold prepare. cbv zeta. destruct (get_ind_matrix _ _) as [[m idx]|e]; cbn [bind fst]; [|discriminate].
    destruct (forallb _ (d_index _ d)) eqn:Ecov; cbn [negb raise_if bind]; [|discriminate].
    destruct (_ || _ || _) eqn:Ed; cbn [raise_if bind]; [discriminate|]. apply Bool.orb_false_iff in Ed as [Ed E3]. apply Bool.orb_false_iff in Ed as [E1 E2].
    apply Nat.eqb_neq in E1, E2. apply Bool.negb_false_iff, Nat.eqb_eq in E3.
    destruct (match d_weight _ d with Some a => _ | None => Ok tt end) as [[]|e] eqn:Ew; cbn [bind]; [|discriminate].
    destruct (validate_y (d_labels _ d)) as [classes y] eqn:Ey.
    destruct (Z.leb_spec (n_estimators p) 0); cbn [raise_if bind]; [discriminate|].
    destruct (check_max_samples _ _) as [ms|e] eqn:Ems; cbn [bind]; [|discriminate].
    destruct (check_max_features _ _) as [mf|e] eqn:Emf; cbn [bind]; [|discriminate].
    destruct (warm_start p && oob_score p) eqn:Ewo; cbn [raise_if bind]; [discriminate|].
    destruct (Z.ltb_spec (n_estimators p - Z.of_nat (length (if warm_start p then match ensemble _ self with Some ts => ts | None => [] end else []))) 0); cbn [raise_if bind]; [discriminate|].
    intros E. injection E as <- <- <- <-. exists m, idx, classes, y, ms, mf.
    repeat (split; [first [reflexivity|assumption|lia]|]); split; [|repeat (split; [first [reflexivity|assumption|lia]|]); reflexivity].
    intros a Ha. rewrite Ha in Ew. unfold read, get in Ew. destruct (nth_error h a) as [w|]; [|discriminate]. cbn [bind] in Ew. exists w. split; [reflexivity|].
    destruct (Nat.eqb_spec (length w) (length (d_rows _ d))); [assumption|discriminate].
  Qed.

  (** The matrix of the rows of X. *)
  Lemma spans samples bars m idx index : get_ind_matrix (complete samples) bars = Ok (m, idx) -> NoDup (map fst samples) -> (forall t, In t index -> In t (map fst samples)) ->
    let m' := select_columns m (locate (index_mapping (complete samples) (ncols m)) index) in
    ncols m' = length index /\ nrows m' = length idx /\
    (forall r i tau s e, nth_error idx r = Some tau -> nth_error index i = Some s -> In (s, e) samples -> (entry m' r i = true <-> (s <= tau <= e)%Z)).
  Proof.
    intros E Hn Hc m'. destruct (c13 _ _ _ _ E) as (Hcols & Hrows & _ & _ & Hent).
    assert (Hf2 : Forall2 (fun t p => nth_error (map fst samples) p = Some t) index (locate (index_mapping (complete samples) (ncols m)) index)).
    { unfold index_mapping. rewrite Hcols. unfold complete. rewrite map_map. cbn [fst]. rewrite <- (map_map fst Some), <- (map_length fst samples). now apply locate_all. }
    split; [symmetry; exact (Forall2_len _ _ _ Hf2)|]. split; [exact Hrows|]. intros r i tau s e Hr Hi Hin.
    destruct (Forall2_nth _ _ _ i s Hf2 Hi) as (p & Hp & Hs). unfold m', select_columns. cbn [entry]. rewrite Hp.
    rewrite nth_error_map in Hs. destruct (nth_error samples p) as [[s' e']|] eqn:Esp; [|discriminate]. cbn in Hs. injection Hs as ->.
    assert (e' = e) as ->.
    { destruct (In_nth_error _ _ Hin) as [q Hq]. assert (p = q) as ->; [|congruence]. apply (proj1 (NoDup_nth_error (map fst samples)) Hn).
      - rewrite map_length. apply nth_error_Some. congruence.
      - rewrite !nth_error_map, Esp, Hq. reflexivity. }
    now apply Hent.
  Qed.

  Lemma c50 p jobs sched (d : data num) (self : attributes model) h h' a samples : 0 < jobs -> fit p jobs sched d self h = Ok (h', a) ->
    (warm_start p = true -> ensemble _ self = None) -> samples_info_sets p = complete samples -> NoDup (map fst samples) ->
    length (d_index _ d) = length (d_rows _ d) -> (forall g, fair_choice (choices _ np g)) -> (0 < update_probs_every p)%Z ->
    exists ts given y m idx ms mf, ensemble _ a = Some ts /\ length ts = Z.to_nat (n_estimators p) /\ given_is d h given /\ codes_of (d_labels _ d) y /\
      sample_size (max_samples p) (length (d_rows _ d)) ms /\ feature_size (max_features p) (d_width _ d) mf /\
      ncols m = length (d_rows _ d) /\ nrows m = length idx /\ increasingZ idx /\ (forall tau, In tau idx <-> row_time samples (price_bars p) tau) /\
      (forall r i tau s e, nth_error idx r = Some tau -> nth_error (d_index _ d) i = Some s -> In (s, e) samples -> (entry m r i = true <-> (s <= tau <= e)%Z)) /\
      forall k t, nth_error ts k = Some t ->
        comes_from np est (d_rows _ d) (d_width _ d) y given (bootstrap_features p) mf ms m (update_probs_every p) (kth_seed np (random_state p) k) t /\
        length (t_samples _ t) = ms /\ Forall (fun i => i < length (d_rows _ d)) (t_samples _ t) /\
        list_sum (map (count_occ Nat.eq_dec (t_samples _ t)) (seq 0 (length (d_rows _ d)))) = ms.
  Proof.
    intros Hj E Hself Hsam Hnd Hidx Hfair Hu. pose proof (fit_visible np est p jobs sched d self h Hj) as E1. rewrite E in E1. cbn [visible] in E1. symmetry in E1.
    unfold pure_fit in E1. destruct (prepare p d self h) as [[[[j nc] old] k]|e] eqn:Ep; [|discriminate]. cbn [bind] in E1.
    destruct (prepare_inv _ _ _ _ _ _ _ _ Ep) as (m & idx & classes & y & ms & mf & Em & Hcov & Hn & Hwd & Hlab & Hwt & Hy & Hne & Hms & Hmf & Hwo & Hold & Hk0 & Hk & Hnc & ->).
    assert (old = []) as -> by (rewrite Hold; destruct (warm_start p); [now rewrite Hself|reflexivity]). clear Hold. cbn [length] in *.
    replace (n_estimators p - Z.of_nat 0)%Z with (n_estimators p) in * by lia. destruct (Nat.eqb_spec k 0); [lia|].
    destruct (allowed est _) as [[]|e]; cbn [bind] in E1; [|discriminate]. destruct (mapM _ _) as [new|e] eqn:Emap; cbn [bind] in E1; [|discriminate]. cbn [app] in E1.
    destruct (if oob_score p then _ else _) as [o|e]; cbn [bind] in E1; [|discriminate]. injection E1 as <-.
    rewrite Hsam in Em, Hcov, Emap. destruct (c13 _ _ _ _ Em) as (Hcols & Hrows & Hinc & Htimes & _).
    pose proof (proj1 (covered_spec samples (ncols m) (d_index _ d) Hcols) Hcov) as Hcov'. clear Hcov. rename Hcov' into Hcov. destruct (spans samples (price_bars p) m idx (d_index _ d) Em Hnd Hcov) as (Hc' & Hr' & Hent).
    set (m' := select_columns m (locate (index_mapping (complete samples) (ncols m)) (d_index _ d))) in *.
    destruct (validate_codes _ _ _ Hy) as (Hcodes & Hly & _).
    assert (Hgl : length (given_weights d h) = length (d_rows _ d)).
    { unfold given_weights. destruct (d_weight _ d) as [a0|]; [|apply repeat_length]. destruct (Hwt a0 eq_refl) as (w & -> & Hw). exact Hw. }
    exists new, (given_weights d h), y, m', idx, ms, mf. split; [reflexivity|]. split.
    { rewrite (mapM_length _ _ _ Emap). unfold seeds_from. now rewrite map_length, seq_length, Hk. }
    split. { unfold given_is, given_weights. destruct (d_weight _ d) as [a0|]; [|reflexivity]. destruct (Hwt a0 eq_refl) as (w & -> & _). reflexivity. }
    split; [exact Hcodes|]. split; [now apply (proj1 (check_samples_spec _ _ _ Hn))|]. split; [now apply (proj1 (check_features_spec _ _ _ Hwd))|]. split; [exact (eq_trans Hc' Hidx)|]. split; [exact Hr'|]. split; [exact Hinc|].
    split; [exact Htimes|]. split; [exact Hent|]. intros i t Ht.
    assert (Hseed : nth_error (seeds_from np p 0 k) i = Some (kth_seed np (random_state p) i)).
    { unfold seeds_from. rewrite nth_error_map. assert (Hi : i < length new) by (apply nth_error_Some; congruence). rewrite (mapM_length _ _ _ Emap) in Hi.
      unfold seeds_from in Hi. rewrite map_length, seq_length in Hi. assert (Es : nth_error (seq 0 k) i = Some i) by (apply nth_error_seq; lia). now rewrite Es. }
    destruct (mapM_nth _ _ _ _ _ Emap Hseed) as (t' & Ht' & Etr). assert (t' = t) as -> by congruence.
    apply train_comes in Etr; [|exact Hgl]. cbn [j_X j_n_features j_y j_bootstrap_features j_max_features j_max_samples j_ind_mat j_every] in Etr. split; [exact Etr|].
    destruct Etr as (e0 & g & features & g' & smp & lg & _ & _ & Eboot & _ & -> & _).
    assert (Hn' : 0 < ncols m') by (pose proof (eq_trans Hc' Hidx); lia).
    destruct (c18' m' (choices _ np g') (Some (Z.of_nat ms)) (update_probs_every p) (Hfair g') Hn' Hu (Nat2Z.is_nonneg _)) as (smp' & lg' & Eb' & Hl & Hr & _).
    rewrite Eboot in Eb'. injection Eb' as <- <-. rewrite Nat2Z.id in Hl. pose proof (eq_trans Hc' Hidx) as Hc''. rewrite Hc'' in Hr. split; [exact Hl|]. split; [exact Hr|]. now rewrite count_sum.
  Qed.

  (** ** C52 *)
  Lemma covered_gen samples n times : n = length samples ->
    forallb (fun t => existsb (fun e : option Z * nat => match fst e with Some s => Z.eqb s t | None => false end) (index_mapping samples n)) times = true <->
    (forall t, In t times -> exists e, In (Some t, e) samples).
  Proof.
    intros ->. unfold index_mapping.
    assert (Hc : forall t l s, existsb (fun e : option Z * nat => match fst e with Some s => Z.eqb s t | None => false end) (combine (map fst l) (seq s (length l))) = true <->
      exists e : option Z, In (Some t, e) l).
    { intros t l. induction l as [|[x e] l IH]; intros s; cbn [map length seq combine existsb fst].
      - split; [discriminate|]. intros [e He]. destruct He.
      - rewrite Bool.orb_true_iff, IH. destruct x as [x|].
        + rewrite Z.eqb_eq. split.
          * intros [->|[e' H]]; [exists e; now left|exists e'; now right].
          * intros [e' [H|H]]; [left; congruence|right; now exists e'].
        + split.
          * intros [H|[e' H]]; [discriminate|exists e'; now right].
          * intros [e' [H|H]]; [discriminate|right; now exists e']. }
    rewrite forallb_forall. split; intros H t Ht; [apply (Hc t samples 0)|apply Hc]; auto.
  Qed.
  Lemma ind_matrix_cols samples bars m idx : get_ind_matrix samples bars = Ok (m, idx) -> ncols m = length samples.
  Proof.
    intros E. assert (H : exists s, samples = complete s).
    { unfold get_ind_matrix in E. destruct (_ || _) eqn:Ex; [discriminate|]. apply Bool.orb_false_iff in Ex as [E1 E2].
      destruct (complete_inv samples E1 E2) as [s Hs]. now exists s. }
    destruct H as [s ->]. destruct (c13 _ _ _ _ E) as [-> _]. unfold complete. now rewrite map_length.
  Qed.
  Lemma prepare_iff p (d : data num) (self : attributes model) h m idx : get_ind_matrix (samples_info_sets p) (price_bars p) = Ok (m, idx) ->
    (exists x, prepare p d self h = Ok x) <-> acceptable p d self h.
  Proof.
    intros Em. pose proof (ind_matrix_cols _ _ _ _ Em) as Hcols. unfold acceptable. split.
    - intros [[[[j nc] old] k] Ep].
      destruct (prepare_inv _ _ _ _ _ _ _ _ Ep) as (m' & idx' & classes & y & ms & mf & Em' & Hcov & Hn & Hwd & Hlab & Hwt & Hy & Hne & Hms & Hmf & Hwo & Hold & Hk0 & Hk & Hnc & ->).
      rewrite Em in Em'. injection Em' as <- <-.
      split; [exists ms; now apply (proj1 (check_samples_spec _ _ _ Hn))|]. split; [exists mf; now apply (proj1 (check_features_spec _ _ _ Hwd))|].
      split; [intros [H1 H2]; now rewrite H1, H2 in Hwo|]. split; [now apply (proj1 (covered_gen _ _ _ Hcols))|]. repeat (split; [first [assumption|lia|auto]|]).
      intros ts Hw Hts. rewrite Hold in Hk0. rewrite Hw, Hts in Hk0. lia.
    - intros ([ms Hms] & [mf Hmf] & Hwo & Hcov & Hn & Hwd & Hlab & Hwt & Hne & Hold). unfold prepare. cbv zeta. rewrite Em. cbn [bind fst].
      pose proof (proj2 (covered_gen _ _ (d_index _ d) Hcols) Hcov) as Hcov'. clear Hcov. rename Hcov' into Hcov. rewrite Hcov. cbn [negb raise_if bind].
      destruct (Nat.eqb_spec (length (d_rows _ d)) 0); [lia|]. destruct (Nat.eqb_spec (d_width _ d) 0); [lia|]. rewrite Hlab, Nat.eqb_refl. cbn [orb negb raise_if bind].
      replace (match d_weight _ d with Some a => _ | None => Ok tt end) with (Ok tt).
      2:{ destruct (d_weight _ d) as [a|]; [|reflexivity]. destruct (Hwt a eq_refl) as (w & Hw & Hl). unfold read, get. rewrite Hw. cbn [bind]. now rewrite Hl, Nat.eqb_refl. }
      cbn [bind]. destruct (validate_y _) as [classes y]. destruct (Z.leb_spec (n_estimators p) 0); [lia|]. cbn [raise_if bind].
      apply (proj2 (check_samples_spec _ _ _ Hn)) in Hms. rewrite Hms. cbn [bind]. apply (proj2 (check_features_spec _ _ _ Hwd)) in Hmf. rewrite Hmf. cbn [bind].
      destruct (warm_start p && oob_score p) eqn:Ewo; [apply Bool.andb_true_iff in Ewo; tauto|]. cbn [raise_if bind].
      match goal with |- context [(?a <? 0)%Z] => destruct (Z.ltb_spec a 0) as [Hlt|_] end; [|cbn [raise_if bind]; eauto].
      exfalso. destruct (warm_start p); [|cbn in Hlt; lia]. destruct (ensemble _ self) as [ts|]; [|cbn in Hlt; lia]. specialize (Hold ts eq_refl eq_refl). lia.
  Qed.
  Lemma c52_rejects p jobs sched (d : data num) (self : attributes model) h h' a : fit p jobs sched d self h = Ok (h', a) -> 0 < jobs -> acceptable p d self h.
  Proof.
    intros E Hj. pose proof (fit_visible np est p jobs sched d self h Hj) as E1. rewrite E in E1. cbn [visible] in E1. symmetry in E1.
    unfold pure_fit in E1. destruct (prepare p d self h) as [x|e] eqn:Ep; [|discriminate].
    destruct (get_ind_matrix (samples_info_sets p) (price_bars p)) as [[m idx]|e] eqn:Em.
    - apply (prepare_iff p d self h m idx Em). eauto.
    - exfalso. unfold prepare in Ep. rewrite Em in Ep. discriminate.
  Qed.

  Lemma at_positions_total {A} (l : list A) positions : Forall (fun i => i < length l) positions -> exists l', take_rows l positions = Ok l' /\ length l' = length positions.
  Proof.
    unfold take_rows. induction 1 as [|i is Hi H IH]; [now exists []|]. destruct IH as (l' & E & El). destruct (get_lt l i Hi) as (x & Hx & _). exists (x :: l'). cbn [mapM]. rewrite Hx. cbn [bind]. rewrite E.
    split; [reflexivity|]. cbn. now rewrite El.
  Qed.
  Lemma columns_total (X : list (list num)) features w : Forall (fun row => length row = w) X -> Forall (fun i => i < w) features -> exists Y, take_columns _ X features = Ok Y.
  Proof.
    intros HX Hf. unfold take_columns. induction HX as [|row X Hr HX IH]; [now exists []|]. destruct IH as [Y E].
    destruct (at_positions_total row features) as (r' & Er & _); [now rewrite Hr|]. exists (r' :: Y). cbn [mapM]. change (mapM (get row) features) with (take_rows row features).
    rewrite Er. cbn [bind]. now rewrite E.
  Qed.
  Lemma feature_size_bounds s n k : feature_size s n k -> 1 <= k <= n.
  Proof.
    destruct s as [z|[q| | |]|]; cbn [feature_size]; try easy. intros [[H1 H2] (f & [F1 F2] & ->)].
    assert (f <= n); [|assert (0 < n); [|lia]].
    - destruct (Nat.le_gt_cases f n); [assumption|]. assert (Hlt : (Qn n < Qn f)%Q) by now apply Qn_lt. exfalso. apply (Qlt_irrefl (Qn n)). eapply Qlt_le_trans; [exact Hlt|]. eapply Qle_trans; eauto.
    - destruct n; [|lia]. exfalso. apply (Qlt_irrefl 0%Q). eapply Qlt_le_trans; [exact H1|]. exact H2.
  Qed.
  Lemma train_total (j : job) given seed w : libraries_fine np est -> length given = length (j_X _ j) -> length (j_y _ j) = length (j_X _ j) ->
    Forall (fun row => length row = w) (j_X _ j) -> j_n_features _ j = w -> 0 < w -> j_max_features _ j <= w -> ncols (j_ind_mat _ j) = length (j_X _ j) -> 0 < length (j_X _ j) -> (0 < j_every _ j)%Z ->
    exists t, train np est j given seed = Ok t.
  Proof.
    intros (Hfw & Hfp & Hfair & Hri & Hsw) Hg Hy HX Hw Hw0 Hmf Hcols Hn Hu. unfold train. destruct (make _ _ _ _ est _) as [e g].
    unfold generate_bagging_indices, generate_random_features. destruct (if j_bootstrap_features _ j then _ else _) as [features g'] eqn:Ef.
    assert (Hfeat : Forall (fun i => i < w) features).
    { rewrite Hw in Ef. destruct (j_bootstrap_features _ j); [specialize (Hri g w (j_max_features _ j) Hw0); now rewrite Ef in Hri|specialize (Hsw g w (j_max_features _ j) Hmf); now rewrite Ef in Hsw]. }
    destruct (c18' (j_ind_mat _ j) (choices _ np g') (Some (Z.of_nat (j_max_samples _ j))) (j_every _ j) (Hfair g') ltac:(lia) Hu (Nat2Z.is_nonneg _)) as (smp & lg & -> & Hl & Hr & _).
    cbn [bind fst]. rewrite Hcols in Hr. destruct (support_sample_weight _ _ _ _ est).
    - rewrite (bincount_length_lt smp _ Hr), Hg, Nat.eqb_refl. cbn [negb raise_if bind]. destruct (columns_total (j_X _ j) features w HX Hfeat) as [Y ->]. cbn [bind].
      destruct (Hfw e Y (j_y _ j) (map (fun p => fst p * snd p)%Q (combine given (bincount smp (length (j_X _ j)))))) as [m ->]. cbn [bind]. eauto.
    - destruct (at_positions_total (j_X _ j) smp Hr) as (Xi & Ei & _). rewrite Ei. cbn [bind].
      assert (HXi : Forall (fun row => length row = w) Xi).
      { apply take_rows_spec in Ei. rewrite Forall_forall in HX. clear -Ei HX. induction Ei as [|i x l l' Hx _ IH]; constructor; auto. apply HX. eapply nth_error_In; eauto. }
      destruct (columns_total Xi features w HXi Hfeat) as [Y ->]. cbn [bind]. destruct (at_positions_total (j_y _ j) smp) as (yi & -> & _); [now rewrite Hy|]. cbn [bind].
      destruct (Hfp e Y yi) as [m ->]. cbn [bind]. eauto.
  Qed.
  Lemma c52_proceeds p jobs sched (d : data num) (self : attributes model) h samples m idx : 0 < jobs -> libraries_fine np est -> samples_info_sets p = complete samples ->
    get_ind_matrix (complete samples) (price_bars p) = Ok (m, idx) -> NoDup (map fst samples) -> (0 < update_probs_every p)%Z ->
    length (d_index _ d) = length (d_rows _ d) -> Forall (fun row => length row = d_width _ d) (d_rows _ d) ->
    (d_weight _ d <> None -> support_sample_weight _ _ _ _ est = true) -> oob_score p = false ->
    acceptable p d self h -> exists h' a, fit p jobs sched d self h = Ok (h', a).
  Proof.
    intros Hj Hlib Hsam Em Hnd Hu Hidx Hrows Hsup Hoob Hfine. pose proof (fit_pure np est p jobs sched d self h Hj) as Hfit.
    destruct (fit p jobs sched d self h) as [[h' a]|e]; [eauto|]. exfalso. revert Hfit. unfold pure_fit. rewrite <- Hsam in Em. pose proof (proj2 (prepare_iff p d self h m idx Em) Hfine) as [[[[j nc] old] k] Ep].
    rewrite Ep. cbn [bind].
    destruct (prepare_inv _ _ _ _ _ _ _ _ Ep) as (m' & idx' & classes & y & ms & mf & Em' & Hcov & Hn & Hwd & Hlab & Hwt & Hy & Hne & Hms & Hmf & Hwo & Hold & Hk0 & Hk & Hnc & ->).
    rewrite Em in Em'. injection Em' as <- <-. destruct (Nat.eqb k 0); [discriminate|].
    replace (allowed est _) with (Ok tt).
    2:{ unfold allowed. cbn [j_weight]. destruct (d_weight _ d) as [a|]; [|reflexivity]. now rewrite Hsup. }
    cbn [bind].
    match goal with |- context [mapM ?f ?l] => assert (Hall : exists r, mapM f l = Ok r) end.
    { assert (Hgl : length (given_weights d h) = length (d_rows _ d)).
      { unfold given_weights. destruct (d_weight _ d) as [a0|]; [|apply repeat_length]. destruct (Hwt a0 eq_refl) as (w & -> & Hw). exact Hw. }
      rewrite Hsam in Em. pose proof Em as Em2. destruct (c13 _ _ _ _ Em) as (Hcols & _). rewrite Hsam in Hcov. pose proof (proj1 (covered_spec samples (ncols m) (d_index _ d) Hcols) Hcov) as Hcov'. clear Hcov. rename Hcov' into Hcov.
      destruct (spans samples (price_bars p) m idx (d_index _ d) Em Hnd Hcov) as (Hc' & _).
      destruct (validate_codes _ _ _ Hy) as (_ & Hly & _).
      generalize (seeds_from np p (length old) k). intros l. induction l as [|s l IH]; [now exists []|]. destruct IH as [r Er]. cbn [mapM].
      match goal with |- context [train np est ?j ?g s] => destruct (train_total j g s (d_width _ d) Hlib) as [t Et] end; cbn [j_X j_y j_n_features j_max_features j_ind_mat j_every]; auto; try lia.
      - apply (proj1 (check_features_spec _ _ _ Hwd)) in Hmf. now apply feature_size_bounds in Hmf.
      - rewrite Hsam, Hc'. exact Hidx.
      - rewrite Et. cbn [bind]. rewrite Er. cbn [bind]. eauto. }
    destruct Hall as [r Er]. rewrite Er. cbn [bind]. rewrite Hoob. cbn [bind]. discriminate.
  Qed.

  (** The exceptions. *)
  Definition finite (s : size_arg) : Prop := match s with SInt _ | SFloat (Fin _) => True | _ => False end.
  Lemma check_samples_err s n : finite s -> (forall k, check_max_samples s n <> Ok k) -> check_max_samples s n = Err ValueError.
  Proof.
    unfold check_max_samples. destruct s as [z|[q| | |]|]; try easy; intros _; cbn [times_n emul int_of bind].
    - destruct (_ && _); intros H; [now destruct (H _ eq_refl)|reflexivity].
    - match goal with |- context [if ?b then _ else _] => destruct b end; intros H; [now destruct (H _ eq_refl)|reflexivity].
  Qed.
  Lemma check_features_err s n : finite s -> (forall k, check_max_features s n <> Ok k) -> check_max_features s n = Err ValueError.
  Proof.
    unfold check_max_features. destruct s as [z|[q| | |]|]; try easy; intros _; cbn [times_n emul int_of bind].
    - destruct (_ && _); intros H; [now destruct (H _ eq_refl)|reflexivity].
    - match goal with |- context [if ?b then _ else _] => destruct b end; intros H; [now destruct (H _ eq_refl)|reflexivity].
  Qed.
  Lemma c52_exceptions p jobs sched (d : data num) (self : attributes model) h m idx : 0 < jobs -> get_ind_matrix (samples_info_sets p) (price_bars p) = Ok (m, idx) ->
    finite (max_samples p) -> finite (max_features p) -> (forall a, d_weight _ d = Some a -> a < length h) -> ~ acceptable p d self h ->
    ((exists t, In t (d_index _ d) /\ forall e, ~ In (Some t, e) (samples_info_sets p)) -> fit p jobs sched d self h = Err AssertionError) /\
    ((forall t, In t (d_index _ d) -> exists e, In (Some t, e) (samples_info_sets p)) -> fit p jobs sched d self h = Err ValueError).
  Proof.
    intros Hj Em Hfs Hff Haddr Hno. pose proof (ind_matrix_cols _ _ _ _ Em) as Hcols. pose proof (fit_pure np est p jobs sched d self h Hj) as Hfit.
    assert (Hgoal : forall e, prepare p d self h = Err e -> fit p jobs sched d self h = Err e).
    { intros e Ep. unfold pure_fit in Hfit. rewrite Ep in Hfit. cbn [bind] in Hfit. destruct (fit p jobs sched d self h) as [[h' a]|e']; [destruct Hfit; discriminate|congruence]. }
    pose proof (covered_gen _ _ (d_index _ d) Hcols) as Hcov. split.
    - intros (t & Ht & Hnt). apply Hgoal. unfold prepare. cbv zeta. rewrite Em. cbn [bind fst].
      destruct (forallb _ (d_index _ d)) eqn:Ef; [|reflexivity]. destruct (proj1 Hcov eq_refl t Ht) as [e He]. now destruct (Hnt e).
    - intros Hc. apply Hgoal. pose proof (proj2 Hcov Hc) as Ef.
      assert (Hnp : forall x, prepare p d self h <> Ok x) by (intros x Ex; apply Hno; apply (prepare_iff p d self h m idx Em); eauto).
      revert Hnp. unfold prepare. cbv zeta. rewrite Em. cbn [bind fst]. rewrite Ef. cbn [negb raise_if bind].
      destruct (_ || _ || _); cbn [raise_if bind]; [reflexivity|].
      destruct (match d_weight _ d with Some a => _ | None => Ok tt end) as [[]|e] eqn:Ew; cbn [bind].
      2:{ intros _. destruct (d_weight _ d) as [a|]; [|discriminate]. unfold read, get in Ew. destruct (nth_error h a) as [w|] eqn:Ea.
          - cbn [bind] in Ew. destruct (negb _); [|discriminate]. cbn in Ew. congruence.
          - apply nth_error_None in Ea. specialize (Haddr a eq_refl). lia. }
      destruct (validate_y _) as [classes y]. destruct (_ <=? _)%Z; cbn [raise_if bind]; [reflexivity|].
      destruct (check_max_samples _ _) as [ms|e] eqn:Es; cbn [bind].
      2:{ intros _. rewrite check_samples_err in Es; [congruence|exact Hfs|]. intros k. rewrite Es. discriminate. }
      destruct (check_max_features _ _) as [mf|e] eqn:Et; cbn [bind].
      2:{ intros _. rewrite check_features_err in Et; [congruence|exact Hff|]. intros k. rewrite Et. discriminate. }
      destruct (_ && _); cbn [raise_if bind]; [reflexivity|]. destruct (_ <? _)%Z; cbn [raise_if bind]; [reflexivity|]. intros H. now destruct (H _ eq_refl).
  Qed.

  (** Sizes that are not finite numbers. *)
  Lemma times_inf n (x : ext Q) : 1 <= n -> (x = PInf \/ x = NInf) -> times_n x n = x.
  Proof.
    intros Hn H. unfold times_n. assert (esign (Fin (Qn n)) = Gt) as E.
    { destruct n; [lia|]. reflexivity. }
    destruct H as [-> | ->]; cbn [emul]; rewrite E; reflexivity.
  Qed.
  Lemma c52_unusual p jobs sched (d : data num) (self : attributes model) h m idx : 0 < jobs -> get_ind_matrix (samples_info_sets p) (price_bars p) = Ok (m, idx) ->
    (forall t, In t (d_index _ d) -> exists e, In (Some t, e) (samples_info_sets p)) ->
    0 < length (d_rows _ d) -> 0 < d_width _ d -> length (d_labels _ d) = length (d_rows _ d) ->
    (forall a, d_weight _ d = Some a -> exists w, nth_error h a = Some w /\ length w = length (d_rows _ d)) -> (0 < n_estimators p)%Z ->
    (max_samples p = SFloat PInf \/ max_samples p = SFloat NInf -> fit p jobs sched d self h = Err OverflowError) /\
    (max_samples p = SFloat NaN -> fit p jobs sched d self h = Err ValueError) /\
    (max_samples p = SOther -> fit p jobs sched d self h = Err TypeError) /\
    ((exists k, sample_size (max_samples p) (length (d_rows _ d)) k) ->
     max_features p = SFloat PInf \/ max_features p = SFloat NInf \/ max_features p = SFloat NaN \/ max_features p = SOther -> fit p jobs sched d self h = Err ValueError).
  Proof.
    intros Hj Em Hc Hn Hw Hl Hwt He. pose proof (ind_matrix_cols _ _ _ _ Em) as Hcols. pose proof (fit_pure np est p jobs sched d self h Hj) as Hfit.
    assert (Hgoal : forall e, prepare p d self h = Err e -> fit p jobs sched d self h = Err e).
    { intros e Ep. unfold pure_fit in Hfit. rewrite Ep in Hfit. cbn [bind] in Hfit. destruct (fit p jobs sched d self h) as [[h' a]|e']; [destruct Hfit; discriminate|congruence]. }
    pose proof (covered_gen _ _ (d_index _ d) Hcols) as Hcov. pose proof (proj2 Hcov Hc) as Ef.
    assert (Hprep : forall e, (check_max_samples (max_samples p) (length (d_rows _ d)) = Err e \/
        (exists ms, check_max_samples (max_samples p) (length (d_rows _ d)) = Ok ms) /\ check_max_features (max_features p) (d_width _ d) = Err e) ->
        prepare p d self h = Err e).
    { intros e Hch. unfold prepare. cbv zeta. rewrite Em. cbn [bind fst]. rewrite Ef. cbn [negb raise_if bind].
      assert ((Nat.eqb (length (d_rows _ d)) 0 || Nat.eqb (d_width _ d) 0 || negb (Nat.eqb (length (d_rows _ d)) (length (d_labels _ d))))%bool = false) as Eb.
      { rewrite Hl, Nat.eqb_refl. destruct (Nat.eqb_spec (length (d_rows _ d)) 0); [lia|]. destruct (Nat.eqb_spec (d_width _ d) 0); [lia|]. reflexivity. }
      rewrite Eb. cbn [raise_if bind].
      assert (match d_weight _ d with Some a => do w <- read h a ;; raise_if (negb (Nat.eqb (length w) (length (d_rows _ d)))) ValueError | None => Ok tt end = Ok tt) as Ew.
      { destruct (d_weight _ d) as [a|]; auto. destruct (Hwt a eq_refl) as (w & Ea & Lw). unfold read, get. rewrite Ea. cbn [bind]. rewrite Lw, Nat.eqb_refl. reflexivity. }
      rewrite Ew. cbn [bind]. destruct (validate_y _) as [classes y]. destruct (Z.leb_spec (n_estimators p) 0); [lia|]. cbn [raise_if bind].
      destruct Hch as [-> | ((ms & ->) & ->)]; reflexivity. }
    repeat split.
    - intros H. apply Hgoal, Hprep. left. unfold check_max_samples. destruct H as [-> | ->]; rewrite times_inf by auto; reflexivity.
    - intros H. apply Hgoal, Hprep. left. unfold check_max_samples. rewrite H. reflexivity.
    - intros H. apply Hgoal, Hprep. left. unfold check_max_samples. rewrite H. reflexivity.
    - intros (k & Hk) H. apply Hgoal, Hprep. right. split; [exists k; now apply check_samples_spec|].
      unfold check_max_features. destruct H as [-> |[-> |[-> | ->]]]; try rewrite times_inf by auto; reflexivity.
  Qed.
End Proofs.
