(** Proofs for the triple-barrier labelling: no dependence on later rows. *)
From Coq Require Import Permutation String Reals.
From Verif Require Import PreludeFacts Series Causal Boot_Model Boot_Proofs Boot_Proofs2 DailyVol_Model Weights_Model Label_Model Label_Spec
  Cusum_Proofs Weights_Proofs2 DailyVol_Proofs Label_Proofs Label_Proofs2 Label_Proofs3.
Local Open Scope nat_scope.

Lemma firstn_nth {X} (l : list X) m k : k < m -> nth_error (firstn m l) k = nth_error l k.
Proof. revert l k. induction m; intros l k Hk; [lia|]. destruct l, k; cbn; auto. apply IHm. lia. Qed.
Lemma firstn_eq_nth {X} (l l' : list X) m k : firstn m l = firstn m l' -> k < m -> nth_error l k = nth_error l' k.
Proof. intros E Hk. now rewrite <- (firstn_nth l m k Hk), <- (firstn_nth l' m k Hk), E. Qed.
Lemma firstn_firstn_le {X} (l l' : list X) m k : firstn m l = firstn m l' -> k <= m -> firstn k l = firstn k l'.
Proof. intros E Hk. replace k with (Nat.min k m) by lia. rewrite <- !firstn_firstn. now rewrite E. Qed.

Lemma incZ_lt_inv l : increasingZ l -> forall i j x y, nth_error l i = Some x -> nth_error l j = Some y -> (x < y)%Z -> i < j.
Proof.
  intros HS i j x y Hi Hj Hlt. destruct (Nat.lt_ge_cases i j) as [|Hge]; auto.
  apply (proj1 (incZ_nth_le l HS j i y x Hj Hi)) in Hge. lia.
Qed.

Section Causality.
  Context {A : Type} `{Arith A}.

  Section Two.
    Variables (idx idx' : list Z) (close close' : list (ext A)) (n : Z) (i q : nat).
    Hypothesis HI : increasingZ idx.
    Hypothesis HI' : increasingZ idx'.
    Hypothesis Hq : Z.of_nat q = (Z.of_nat i + n)%Z.
    Hypothesis Hn : (0 <= n)%Z.
    Hypothesis Hql : q < length idx.
    Hypothesis Ei : firstn (S q) idx = firstn (S q) idx'.
    Hypothesis Ec : firstn (S q) close = firstn (S q) close'.

    Lemma vertical_fw t : vertical idx n i t -> vertical idx' n i t.
    Proof.
      intros (p & E & Hp). exists p. split; auto. assert (p = q) by lia. subst p.
      rewrite <- (firstn_eq_nth _ _ _ q Ei); auto.
    Qed.
    Lemma search_end_fw e : search_end idx n i e -> search_end idx' n i e /\ nth_error idx q = Some e.
    Proof.
      intros [Hv|[Hno He]].
      - split; [left; now apply vertical_fw|]. destruct Hv as (p & E & Hp). assert (p = q) by lia. congruence.
      - exfalso. destruct (nth_some idx q Hql) as [t Ht]. apply (Hno t). exists q. auto.
    Qed.
    Lemma touch_fw e s test t : nth_error idx q = Some e -> touch idx close i e s test t -> touch idx' close' i e s test t.
    Proof.
      intros He (t0 & c0 & k & c & H1 & H2 & H3 & H4 & H5 & H6).
      assert (Hk : k < q).
      { apply (incZ_lt_inv _ HI k q t e); auto; lia. }
      rewrite (firstn_eq_nth _ _ _ i Ei) in H1 by lia. rewrite (firstn_eq_nth _ _ _ k Ei) in H3 by lia.
      rewrite (firstn_eq_nth _ _ _ i Ec) in H2 by lia. rewrite (firstn_eq_nth _ _ _ k Ec) in H4 by lia.
      exists t0, c0, k, c. repeat split; auto; lia.
    Qed.
    Lemma barrier_time_fw pt sl (w s : ext A) t : barrier_time idx close i n pt sl w s t -> barrier_time idx' close' i n pt sl w s t.
    Proof.
      intros [Hv|(e & He & Ht)]; [left; now apply vertical_fw|right]. destruct (search_end_fw e He) as [He' Hqe].
      exists e. split; auto. destruct Ht as [Ht|Ht]; [left|right]; eapply touch_fw; eauto.
    Qed.
    Lemma touched_fw pt sl (w s : ext A) : touched idx close i n pt sl w s -> touched idx' close' i n pt sl w s.
    Proof.
      intros (e & t & He & Ht). destruct (search_end_fw e He) as [He' Hqe].
      exists e, t. split; auto. destruct Ht as [Ht|Ht]; [left|right]; eapply touch_fw; eauto.
    Qed.
  End Two.

  Implicit Types (y : frame A) (cfg : config A).

  Lemma hit_dec daily_vol order cfg y close out i (o : out_row A) s : valid_times (f_index y) -> well_formed y ->
    Permutation order (seq 0 (length (f_index y))) ->
    column y (close_column cfg) = Some close -> event_side y i s ->
    transform daily_vol order cfg y = Ok out -> nth_error out i = Some o ->
    let hit := touched (f_index y) close i (n_expiration_bars cfg) (profit_taking_factor cfg) (stop_loss_factor cfg) (o_vol o) s in
    hit \/ ~ hit.
  Proof.
    intros HV HW HP Hc Hs HT Ho hit.
    destruct (out_row_vol _ _ _ _ _ _ _ HV HW HP HT Ho) as (close' & vol & Hc' & Hvol & Hw & Hi & (t0 & s' & b & l & Ht0 & Hs' & HB & HL & E)).
    assert (close' = close) by congruence. subst close'. rewrite (event_side_unique _ _ _ _ Hs' Hs) in HB.
    destruct HB as (_ & Hst & Hs0 & Hpr & Hp0). destruct (search_end_exists (f_index y) (n_expiration_bars cfg) i Hi) as [e Hse].
    destruct (b_stop b) as [u|].
    { left. exists e, u. split; auto. left. apply (proj1 (Hst e u Hse) eq_refl). }
    destruct (b_profit b) as [u|].
    { left. exists e, u. split; auto. right. apply (proj1 (Hpr e u Hse) eq_refl). }
    right. intros (e' & u & He' & [Hu|Hu]); [eapply Hs0; eauto|eapply Hp0; eauto].
  Qed.

  Lemma c29 daily_vol daily_vol' order order' cfg y y' out out' i q (o o' : out_row A) :
    valid_times (f_index y) -> valid_times (f_index y') -> well_formed y -> well_formed y' ->
    Permutation order (seq 0 (length (f_index y))) -> Permutation order' (seq 0 (length (f_index y'))) ->
    (0 <= n_expiration_bars cfg)%Z -> Z.of_nat q = (Z.of_nat i + n_expiration_bars cfg)%Z ->
    q < length (f_index y) -> q < length (f_index y') -> agree_until (S q) y y' ->
    transform daily_vol order cfg y = Ok out -> transform daily_vol' order' cfg y' = Ok out' ->
    nth_error out i = Some o -> nth_error out' i = Some o' -> o_vol o = o_vol o' -> o = o'.
  Proof.
    intros HV HV' HW HW' HP HP' Hn Hq Hl Hl' [Ei Ecol] HT HT' Ho Ho' Ew.
    assert (Hiq : i <= q) by lia.
    destruct (out_row_vol _ _ _ _ _ _ _ HV HW HP HT Ho) as (close & vol & Hc & _ & _ & Hi & (t0 & s & _ & _ & Ht0 & Hs & _)).
    destruct (out_row_vol _ _ _ _ _ _ _ HV' HW' HP' HT' Ho') as (close' & vol' & Hc' & _ & _ & Hi' & (t0' & s' & _ & _ & Ht0' & Hs' & _)).
    assert (Ec : firstn (S q) close = firstn (S q) close').
    { specialize (Ecol (close_column cfg)). rewrite Hc, Hc' in Ecol. cbn [option_map] in Ecol. injection Ecol as E; exact E. }
    assert (s' = s).
    { unfold event_side in *. specialize (Ecol "side"%string). destruct (column y "side") as [l|] eqn:E1, (column y' "side") as [l'|] eqn:E2; cbn [option_map] in Ecol; try discriminate.
      - assert (El : firstn (S q) l = firstn (S q) l') by congruence. rewrite (firstn_eq_nth _ _ _ i El) in Hs by lia. congruence.
      - congruence. }
    subst s'.
    pose proof (fun t => barrier_time_fw _ _ close close' _ i q (proj1 HV) Hq Hn Hl Ei Ec (profit_taking_factor cfg) (stop_loss_factor cfg) (o_vol o) s t) as Hfw.
    pose proof (fun t => barrier_time_fw _ _ close' close _ i q (proj1 HV') Hq Hn Hl' (eq_sym Ei) (eq_sym Ec) (profit_taking_factor cfg) (stop_loss_factor cfg) (o_vol o) s t) as Hbw.
    destruct (is_nan (o_vol o)) eqn:En.
    { destruct (c27_novol _ _ _ _ _ _ _ HV HW HP HT Ho En) as (X1 & X2 & X3).
      destruct (c27_novol _ _ _ _ _ _ _ HV' HW' HP' HT' Ho' ltac:(now rewrite <- Ew)) as (Y1 & Y2 & Y3).
      destruct o, o'. cbn in *. congruence. }
    pose proof (c27 _ _ _ _ _ _ _ _ _ HV HW HP Hc Hs HT Ho En) as C1.
    pose proof (c27 _ _ _ _ _ _ _ _ _ HV' HW' HP' Hc' Hs' HT' Ho' ltac:(now rewrite <- Ew)) as C2.
    rewrite <- Ew in C2.
    assert (Ee : o_end o = o_end o').
    { assert (forall t, o_end o = Some t <-> o_end o' = Some t) as HE.
      { intros t. rewrite C1, C2. split; apply least_ext; intros u; split; auto. }
      destruct (o_end o) as [t|]; [symmetry; now apply HE|]. destruct (o_end o') as [t|]; auto. now apply HE. }
    destruct (o_end o) as [t|] eqn:Et.
    - destruct (c28 _ _ _ _ _ _ _ _ _ _ HV HW HP Hc Hs HT Ho Et) as (p & c0 & c & Hp & Hc0 & Hcp & HR).
      destruct (c28 _ _ _ _ _ _ _ _ _ _ HV' HW' HP' Hc' Hs' HT' Ho' (eq_sym Ee)) as (p' & c0' & c' & Hp' & Hc0' & Hcp' & HR').
      cbv zeta in HR, HR'. rewrite <- Ew in HR'.
      assert (Hpq : p <= q).
      { destruct (nth_some (f_index y) q Hl) as [v Hv].
        apply (incZ_nth_le _ (proj1 HV) p q t v Hp Hv).
        apply (proj2 (proj1 (C1 t) eq_refl)). left. exists q. auto. }
      assert (p' = p).
      { rewrite (firstn_eq_nth _ _ _ p Ei) in Hp by lia. eapply incZ_nth_inj; [apply HV'| |]; eauto. }
      subst p'. rewrite (firstn_eq_nth _ _ _ p Ec) in Hcp by lia. rewrite (firstn_eq_nth _ _ _ i Ec) in Hc0 by lia.
      assert (c' = c) by congruence. assert (c0' = c0) by congruence. subst c' c0'.
      destruct HR as (R1 & R2 & R3). destruct HR' as (R1' & R2' & R3').
      assert (Er : o_return o = o_return o') by congruence.
      assert (El : o_label o = o_label o').
      { pose proof (hit_dec _ _ _ _ _ _ _ _ _ HV HW HP Hc Hs HT Ho) as Hd. cbv zeta in Hd.
        pose proof (touched_fw _ _ close close' _ i q (proj1 HV) Hq Hn Hl Ei Ec (profit_taking_factor cfg) (stop_loss_factor cfg) (o_vol o) s) as Tf.
        pose proof (touched_fw _ _ close' close _ i q (proj1 HV') Hq Hn Hl' (eq_sym Ei) (eq_sym Ec) (profit_taking_factor cfg) (stop_loss_factor cfg) (o_vol o) s) as Tb.
        destruct Hd as [Hd|Hd].
        - rewrite R3, R3'; auto.
        - destruct (expiration_label cfg) eqn:Ex.
          + rewrite R2, R2'; auto.
          + rewrite R3, R3'; auto. }
      destruct o, o'. cbn in *. congruence.
    - destruct (c28_noend _ _ _ _ _ _ _ HV HW HP HT Ho Et) as [X1 X2].
      destruct (c28_noend _ _ _ _ _ _ _ HV' HW' HP' HT' Ho' (eq_sym Ee)) as [Y1 Y2].
      destruct o, o'. cbn in *. congruence.
  Qed.

  (** ** The daily volatility at a row depends only on the rows up to it *)

  Lemma find_nth (r : list (Z * ext A)) : forall j t v, increasingZ (map fst r) -> nth_error r j = Some (t, v) ->
    find (fun x => Z.eqb (fst x) t) r = Some (t, v).
  Proof.
    induction r as [|[u x] r IH]; intros j t v HS Hj; [now destruct j|]. cbn in HS. apply incZ_cons in HS. destruct HS as [HS Hlt].
    destruct j as [|j]; cbn in *.
    - injection Hj as -> ->. now rewrite Z.eqb_refl.
    - assert (u < t)%Z by (apply Hlt; apply (in_map fst r (t, v)); eapply nth_error_In; eauto).
      destruct (Z.eqb_spec u t); [lia|]. eapply IH; eauto.
  Qed.
  Lemma find_missing (r : list (Z * ext A)) t : ~ In t (map fst r) -> find (fun x => Z.eqb (fst x) t) r = None.
  Proof.
    induction r as [|[u x] r IH]; intros Hn; auto. cbn in *. destruct (Z.eqb_spec u t); [tauto|]. apply IH. tauto.
  Qed.
  Lemma incZ_skipn m l : increasingZ l -> increasingZ (skipn m l).
  Proof. intros HS. rewrite <- (firstn_skipn m l) in HS. now apply incZ_app in HS. Qed.

  (** What the aligned volatility of row [k] is. *)
  Lemma align_vol F idx (close : list (ext A)) v r m k t : length_preserving F -> increasingZ idx -> length close = length idx ->
    daily_returns idx close = Ok r -> m <= length idx -> map fst r = skipn m idx -> get_daily_vol F idx close = Ok v ->
    nth_error idx k = Some t ->
    nth_error (align idx v) k = if Nat.ltb k m then Some NaN else nth_error (F (map snd r)) (k - m).
  Proof.
    intros HF HS HL Hr Hm Hfst Hv Hk. unfold get_daily_vol in Hv. rewrite Hr in Hv. cbn [bind] in Hv.
    match type of Hv with Ok ?z = Ok _ => assert (v = z) as -> by congruence end. clear Hv.
    assert (HlF : length (F (map snd r)) = length (map fst r)) by (rewrite HF, !map_length; auto).
    unfold align. rewrite nth_error_map, Hk. cbn [option_map].
    destruct (Nat.ltb_spec k m) as [Hlt|Hge].
    - rewrite find_missing; auto. rewrite map_fst_combine by auto. rewrite Hfst. intros Hin.
      apply In_nth_error in Hin. destruct Hin as [j Hj]. rewrite nth_error_skipn in Hj.
      pose proof (incZ_nth_inj _ _ _ _ HS Hk Hj). lia.
    - assert (Hft : nth_error (map fst r) (k - m) = Some t) by (rewrite Hfst, nth_error_skipn; replace (m + (k - m)) with k by lia; auto).
      destruct (nth_some (F (map snd r)) (k - m)) as [x Hx].
      { rewrite HlF. apply nth_error_Some. congruence. }
      rewrite (find_nth _ (k - m) t x).
      + cbn. auto.
      + rewrite map_fst_combine by auto. rewrite Hfst. now apply incZ_skipn.
      + now apply nth_error_combine.
  Qed.

  Lemma causal_firstn {X Y} (F : list X -> list Y) l m : causal F -> length_preserving F -> firstn m (F l) = F (firstn m l).
  Proof.
    intros HC HF. destruct (Nat.le_gt_cases m (length l)) as [Hle|Hgt].
    - rewrite <- (firstn_skipn m l) at 1. rewrite <- (HC (firstn m l) (skipn m l)). rewrite firstn_length. f_equal. lia.
    - rewrite !firstn_all2 by (rewrite ?HF; lia). auto.
  Qed.

  Lemma ref_in_prefix idx idx' K t u k : increasingZ idx -> increasingZ idx' -> firstn (S K) idx = firstn (S K) idx' -> k <= K ->
    nth_error idx k = Some t -> (u < t)%Z -> (In u idx <-> In u idx').
  Proof.
    intros HS HS' E HkK Hk Hlt.
    assert (forall a b, increasingZ a -> firstn (S K) a = firstn (S K) b -> nth_error a k = Some t -> In u a -> In u b) as Hone.
    { intros a b Ha Eab Hak Hu. apply In_nth_error in Hu. destruct Hu as [j Hj].
      assert (j < k) by (apply (incZ_lt_inv _ Ha j k u t); auto). rewrite (firstn_eq_nth _ _ _ j Eab) in Hj by lia. eapply nth_error_In; eauto. }
    split; eapply Hone; eauto. rewrite <- (firstn_eq_nth _ _ _ k E) by lia. auto.
  Qed.

  Lemma daily_vol_causal F idx idx' (close close' : list (ext A)) v v' k : causal F -> length_preserving F ->
    increasingZ idx -> increasingZ idx' -> length close = length idx -> length close' = length idx' ->
    firstn (S k) idx = firstn (S k) idx' -> firstn (S k) close = firstn (S k) close' ->
    get_daily_vol F idx close = Ok v -> get_daily_vol F idx' close' = Ok v' ->
    nth_error (align idx v) k = nth_error (align idx' v') k.
  Proof.
    intros HC HF HS HS' HL HL' Ei Ec Hv Hv'.
    destruct (nth_error idx k) as [t|] eqn:Hk.
    2:{ assert (nth_error idx' k = None) by (rewrite <- (firstn_eq_nth _ _ _ k Ei) by lia; auto).
        unfold align. rewrite !nth_error_map, Hk, H0. auto. }
    assert (Hk' : nth_error idx' k = Some t) by (rewrite <- (firstn_eq_nth _ _ _ k Ei) by lia; auto).
    destruct (c31 idx close HS HL) as (r & m & Hr & Hm & Hfst & Hlt & Hval).
    destruct (c31 idx' close' HS' HL') as (r' & m' & Hr' & Hm' & Hfst' & Hlt' & Hval').
    rewrite (align_vol F idx close v r m k t) by auto. rewrite (align_vol F idx' close' v' r' m' k t) by auto.
    assert (Hday : (0 < one_day)%Z) by reflexivity.
    assert (Hmm : forall j, j <= k -> j < m <-> j < m').
    { intros j Hj. destruct (nth_some idx j) as [tj Htj].
      { assert (k < length idx) by (apply nth_error_Some; congruence). lia. }
      assert (Htj' : nth_error idx' j = Some tj) by (rewrite <- (firstn_eq_nth _ _ _ j Ei) by lia; auto).
      rewrite (Hlt j tj Htj), (Hlt' j tj Htj'). split; intros HN u Hu Hul.
      - apply (HN u); auto. apply (ref_in_prefix idx idx' k tj u j); auto; lia.
      - apply (HN u); auto. apply (ref_in_prefix idx idx' k tj u j); auto; lia. }
    destruct (Nat.ltb_spec k m) as [Hkm|Hkm], (Nat.ltb_spec k m') as [Hkm'|Hkm']; auto.
    { apply Hmm in Hkm; lia. }
    { apply Hmm in Hkm'; lia. }
    assert (m' = m).
    { destruct (Nat.lt_trichotomy m m') as [Hx|[Hx|Hx]]; auto.
      - apply (Hmm m) in Hx; lia.
      - apply (Hmm m') in Hx; lia. }
    subst m'.
    rewrite <- (firstn_nth (F (map snd r)) (S (k - m))) by lia. rewrite <- (firstn_nth (F (map snd r')) (S (k - m))) by lia.
    rewrite (causal_firstn F (map snd r)), (causal_firstn F (map snd r')) by auto. do 2 f_equal. rewrite !firstn_map. f_equal.
    assert (Lr : length r = length idx - m) by (rewrite <- (map_length fst), Hfst, skipn_length; auto).
    assert (Lr' : length r' = length idx' - m) by (rewrite <- (map_length fst), Hfst', skipn_length; auto).
    assert (Hkl : k < length idx) by (apply nth_error_Some; congruence). assert (Hkl' : k < length idx') by (apply nth_error_Some; congruence).
    apply list_eq_nth; [rewrite !firstn_length; lia|].
    intros j x x' Hx Hx'.
    assert (Hj : j < S (k - m)).
    { assert (j < length (firstn (S (k - m)) r)) by (apply nth_error_Some; congruence). rewrite firstn_length in H0. lia. }
    rewrite firstn_nth in Hx by lia. rewrite firstn_nth in Hx' by lia.
    destruct (nth_some idx (m + j) ltac:(lia)) as [tj Htj]. destruct (nth_some close (m + j) ltac:(lia)) as [cj Hcj].
    assert (Htj' : nth_error idx' (m + j) = Some tj) by (rewrite <- (firstn_eq_nth _ _ _ (m + j) Ei) by lia; auto).
    assert (Hcj' : nth_error close' (m + j) = Some cj) by (rewrite <- (firstn_eq_nth _ _ _ (m + j) Ec) by lia; auto).
    destruct (Hval _ _ _ Htj Hcj ltac:(lia)) as (a & u & d & Ha & Hu & Hmax & Hd & Hra).
    destruct (Hval' _ _ _ Htj' Hcj' ltac:(lia)) as (a' & u' & d' & Ha' & Hu' & Hmax' & Hd' & Hra').
    replace (m + j - m) with j in * by lia.
    assert (u = u').
    { apply Z.le_antisymm.
      - apply Hmax'; auto. apply (ref_in_prefix idx idx' k tj u (m + j)); auto; try lia. eapply nth_error_In; eauto.
      - apply Hmax; auto. apply (ref_in_prefix idx idx' k tj u' (m + j)); auto; try lia. eapply nth_error_In; eauto. }
    subst u'.
    assert (Hak : a < m + j) by (apply (incZ_lt_inv _ HS a (m + j) u tj); auto; lia).
    assert (a' = a).
    { rewrite (firstn_eq_nth _ _ _ a Ei) in Ha by lia. eapply incZ_nth_inj; [exact HS'| |]; eauto. }
    subst a'. rewrite (firstn_eq_nth _ _ _ a Ec) in Hd by lia. congruence.
  Qed.

  Lemma c29_full F order order' cfg y y' out out' i q :
    causal F -> length_preserving F ->
    valid_times (f_index y) -> valid_times (f_index y') -> well_formed y -> well_formed y' ->
    Permutation order (seq 0 (length (f_index y))) -> Permutation order' (seq 0 (length (f_index y'))) ->
    (0 <= n_expiration_bars cfg)%Z -> Z.of_nat q = (Z.of_nat i + n_expiration_bars cfg)%Z ->
    q < length (f_index y) -> q < length (f_index y') -> agree_until (S q) y y' ->
    transform (get_daily_vol F) order cfg y = Ok out -> transform (get_daily_vol F) order' cfg y' = Ok out' ->
    nth_error out i = nth_error out' i.
  Proof.
    intros HC HF HV HV' HW HW' HP HP' Hn Hq Hl Hl' Hag HT HT'.
    destruct (transform_rows _ _ _ _ _ HV HW HP HT) as (close & vol & Hc & Hvol & _ & _ & _ & _ & Lo & _).
    destruct (transform_rows _ _ _ _ _ HV' HW' HP' HT') as (close' & vol' & Hc' & Hvol' & _ & _ & _ & _ & Lo' & _).
    destruct (nth_some out i ltac:(lia)) as [o Ho]. destruct (nth_some out' i ltac:(lia)) as [o' Ho']. rewrite Ho, Ho'. f_equal.
    eapply (c29 _ _ _ _ cfg y y' out out' i q); eauto.
    destruct (out_row_vol _ _ _ _ _ _ _ HV HW HP HT Ho) as (cl & vo & Hcl & Hvo & Hw & _).
    destruct (out_row_vol _ _ _ _ _ _ _ HV' HW' HP' HT' Ho') as (cl' & vo' & Hcl' & Hvo' & Hw' & _).
    assert (cl = close) by congruence. assert (cl' = close') by congruence. subst cl cl'.
    assert (vo = vol) by congruence. assert (vo' = vol') by congruence. subst vo vo'.
    destruct Hag as [Ei Ecol].
    assert (Ei' : firstn (S i) (f_index y) = firstn (S i) (f_index y')) by (eapply firstn_firstn_le; [exact Ei|lia]).
    assert (Ec : firstn (S i) close = firstn (S i) close').
    { specialize (Ecol (close_column cfg)). rewrite Hc, Hc' in Ecol. cbn [option_map] in Ecol.
      apply (firstn_firstn_le _ _ (S q)); [congruence|lia]. }
    unfold row_vols in Hvol, Hvol'. destruct (volatility_adjusted cfg).
    - destruct (get_daily_vol F (f_index y) close) as [v|] eqn:E; cbn in Hvol; [|discriminate].
      destruct (get_daily_vol F (f_index y') close') as [v'|] eqn:E'; cbn in Hvol'; [|discriminate].
      assert (vol = align (f_index y) v) as -> by congruence. assert (vol' = align (f_index y') v') as -> by congruence.
      pose proof (daily_vol_causal F _ _ close close' v v' i HC HF (proj1 HV) (proj1 HV') (HW _ _ Hc) (HW' _ _ Hc') Ei' Ec E E'). congruence.
    - assert (vol = map (fun _ => Fin a1) (f_index y)) as -> by congruence.
      assert (vol' = map (fun _ => Fin a1) (f_index y')) as -> by congruence.
      rewrite nth_error_map in Hw, Hw'. destruct (nth_error (f_index y) i), (nth_error (f_index y') i); cbn in *; congruence.
  Qed.
End Causality.

Section More.
  Context {A : Type} `{Arith A}.
  Implicit Types (y : frame A) (cfg : config A).

  Lemma c25_no_stop order idx (close vol side : list (ext A)) n sp pt sl bs i b :
    valid_times idx -> length close = length idx -> length vol = length idx -> length side = length idx ->
    Permutation order (seq 0 (length idx)) ->
    triple_barrier_labeling order idx close (shift_times n idx) vol side sp pt sl = Ok bs -> nth_error bs i = Some b ->
    (altb a0 sl = false -> b_stop b = None) /\ (altb a0 pt = false -> b_profit b = None).
  Proof.
    intros HV Lc Lv Ls HP HB Hb. destruct (tb_rows _ _ _ _ _ _ _ _ _ _ HV Lc Lv Ls HP HB) as (_ & _ & Lb & Hrow).
    assert (Hi : i < length idx) by (rewrite <- Lb; apply nth_error_Some; congruence).
    destruct (nth_some vol i ltac:(lia)) as [w Hw]. destruct (nth_some side i ltac:(lia)) as [s Hs].
    destruct (Hrow i w s Hw Hs) as (b' & Hb' & (_ & H1 & _ & H2 & _)). assert (b' = b) by congruence. subst b'.
    destruct (search_end_exists idx n i Hi) as [e He]. split; intros E.
    - destruct (b_stop b) as [t|]; auto. exfalso. destruct (proj1 (H1 e t He) eq_refl) as [(x1 & x2 & x3 & x4 & Hx) _].
      destruct Hx as (_ & _ & _ & _ & _ & Ht). unfold below_stop in Ht. rewrite E in Ht. discriminate.
    - destruct (b_profit b) as [t|]; auto. exfalso. destruct (proj1 (H2 e t He) eq_refl) as [(x1 & x2 & x3 & x4 & Hx) _].
      destruct Hx as (_ & _ & _ & _ & _ & Ht). unfold above_profit in Ht. rewrite E in Ht. discriminate.
  Qed.

  Lemma c25_times order idx (close vol side : list (ext A)) n sp pt sl bs i b w s e :
    valid_times idx -> length close = length idx -> length vol = length idx -> length side = length idx ->
    Permutation order (seq 0 (length idx)) ->
    triple_barrier_labeling order idx close (shift_times n idx) vol side sp pt sl = Ok bs -> nth_error bs i = Some b ->
    nth_error vol i = Some w -> nth_error side i = Some s -> search_end idx n i e ->
    (forall t, b_vertical b = Some t <-> vertical idx n i t) /\
    (forall t, b_stop b = Some t <-> least (touch idx close i e s (below_stop sl w)) t) /\
    (forall t, b_profit b = Some t <-> least (touch idx close i e s (above_profit pt w)) t).
  Proof.
    intros HV Lc Lv Ls HP HB Hb Hw Hs He. destruct (tb_rows _ _ _ _ _ _ _ _ _ _ HV Lc Lv Ls HP HB) as (_ & _ & Lb & Hrow).
    destruct (Hrow i w s Hw Hs) as (b' & Hb' & (H0 & H1 & _ & H2 & _)). assert (b' = b) by congruence. subst b'.
    split; auto.
  Qed.

  Lemma transform_order daily_vol order order' cfg y : well_formed y ->
    Permutation order order' -> transform daily_vol order cfg y = transform daily_vol order' cfg y.
  Proof.
    intros HW HP. unfold transform. destruct (column y (close_column cfg)) as [close|] eqn:Ec; auto.
    destruct (_ && _)%bool; auto. fold (row_vols daily_vol cfg y close).
    destruct (row_vols daily_vol cfg y close) as [vol|] eqn:Ev; cbn [bind]; auto.
    match goal with |- bind ?x _ = _ => destruct x as [side|] eqn:Es; cbn [bind]; auto end.
    assert (Ls : length side = length (f_index y)).
    { destruct (column y SIDE) eqn:E; [|injection Es as <-; apply map_length].
      destruct (column y (side_column cfg)) eqn:E'; [|discriminate]. injection Es as <-. eapply HW; eauto. }
    match goal with |- bind ?x _ = bind ?z _ => assert (x = z) as ->; [|reflexivity] end.
    unfold triple_barrier_labeling. destruct (negb _); auto. destruct (_ && _)%bool; auto. destruct (rev (f_index y)); auto.
    erewrite c26; [reflexivity|..|exact HP];
      rewrite ?map_length, ?shift_times_length, ?stop_barriers_length, ?profit_barriers_length; auto.
    - eapply HW; eauto.
    - eapply row_vols_length; eauto.
    - eapply row_vols_length; eauto.
  Qed.

  (** Volatility of a row of the output. *)
  Lemma c31_row F order cfg y close out i o t : causal F -> length_preserving F -> valid_times (f_index y) -> well_formed y ->
    Permutation order (seq 0 (length (f_index y))) -> volatility_adjusted cfg = true ->
    column y (close_column cfg) = Some close -> nth_error (f_index y) i = Some t ->
    transform (get_daily_vol F) order cfg y = Ok out -> nth_error out i = Some o ->
    ((forall u, In u (f_index y) -> ~ (u < t - one_day)%Z) -> o_vol o = NaN).
  Proof.
    intros HC HF HV HW HP Hva Hc Ht HT Ho Hno.
    destruct (out_row_vol _ _ _ _ _ _ _ HV HW HP HT Ho) as (close' & vol & Hc' & Hvol & Hw & Hi & _).
    assert (close' = close) by congruence. subst close'.
    unfold row_vols in Hvol. rewrite Hva in Hvol. destruct (get_daily_vol F (f_index y) close) as [v|] eqn:E; cbn in Hvol; [|discriminate].
    assert (vol = align (f_index y) v) as -> by congruence.
    destruct (c31 (f_index y) close (proj1 HV) (HW _ _ Hc)) as (r & m & Hr & Hm & Hfst & Hlt & Hval).
    rewrite (align_vol F (f_index y) close v r m i t) in Hw; auto; [|apply HV|eapply HW; eauto].
    assert (i < m) by (apply (proj2 (Hlt i t Ht)); auto). destruct (Nat.ltb_spec i m); [congruence|lia].
  Qed.
  Lemma c31_align F idx (close : list (ext A)) v r m k t : length_preserving F -> increasingZ idx -> length close = length idx ->
    daily_returns idx close = Ok r -> m <= length idx -> map fst r = skipn m idx -> get_daily_vol F idx close = Ok v ->
    nth_error idx k = Some t ->
    nth_error (align idx v) k = if Nat.ltb k m then Some NaN else nth_error (F (map snd r)) (k - m).
  Proof. apply align_vol. Qed.
End More.
