(** Proofs for the triple-barrier labelling: rows of the output. *)
From Coq Require Import Permutation String.
From Verif Require Import PreludeFacts Series Boot_Model Boot_Proofs Boot_Proofs2 DailyVol_Model Weights_Model Label_Model Label_Spec
  Cusum_Proofs Weights_Proofs2 DailyVol_Proofs Label_Proofs.
Local Open Scope nat_scope.

Lemma to_ms_whole t : (t mod 1000000 = 0)%Z -> (to_ms t * 1000000 = t)%Z.
Proof. unfold to_ms. intros E. pose proof (Z.div_mod t 1000000 ltac:(lia)). lia. Qed.

Lemma combine_length_eq {X Y} (a : list X) (b : list Y) n : length a = n -> length b = n -> length (combine a b) = n.
Proof. intros <- E. rewrite combine_length, E. apply Nat.min_id. Qed.

Lemma nth_error_seq' m n i : i < n -> nth_error (seq m n) i = Some (m + i).
Proof. revert m i. induction n; intros m i Hi; [lia|]. destruct i; cbn; [f_equal; lia|]. rewrite IHn by lia. f_equal. lia. Qed.

Section Rows.
  Context {A : Type} `{Arith A}.

  Lemma touch_ms idx (close : list (ext A)) i u s test v : valid_times idx -> In u idx ->
    (touch (map to_ms idx) close i (to_ms u) s test v <-> exists t, v = to_ms t /\ touch idx close i u s test t).
  Proof.
    intros [_ HV] Hu. pose proof (to_ms_whole u (proj2 (HV u Hu))) as Eu. unfold touch. split.
    - intros (t0 & c0 & k & c & H1 & H2 & H3 & H4 & H5 & H6).
      rewrite nth_error_map in H1, H3. destruct (nth_error idx i) as [T0|] eqn:E0; [|discriminate].
      destruct (nth_error idx k) as [T|] eqn:E; [|discriminate]. cbn in H1, H3. injection H1 as <-. injection H3 as <-.
      pose proof (to_ms_whole T0 (proj2 (HV _ (nth_error_In _ _ E0)))). pose proof (to_ms_whole T (proj2 (HV _ (nth_error_In _ _ E)))).
      exists T. split; auto. exists T0, c0, k, c. repeat split; auto; lia.
    - intros (T & -> & T0 & c0 & k & c & H1 & H2 & H3 & H4 & H5 & H6).
      pose proof (to_ms_whole T0 (proj2 (HV _ (nth_error_In _ _ H1)))). pose proof (to_ms_whole T (proj2 (HV _ (nth_error_In _ _ H3)))).
      exists (to_ms T0), c0, k, c. rewrite !nth_error_map, H1, H3. repeat split; auto; lia.
  Qed.

  Lemma touch_in idx (close : list (ext A)) i u s test t : touch idx close i u s test t -> In t idx.
  Proof. intros (t0 & c0 & k & c & _ & _ & H3 & _). eapply nth_error_In; eauto. Qed.

  Lemma hit_datetime idx (close : list (ext A)) i u s test v : valid_times idx -> In u idx ->
    (least (touch (map to_ms idx) close i (to_ms u) s test) v \/
     ((forall t, ~ touch (map to_ms idx) close i (to_ms u) s test t) /\ v = 0%Z)) ->
    (forall t, ms_to_datetime v = Some t <-> least (touch idx close i u s test) t) /\
    (ms_to_datetime v = None -> forall t, ~ touch idx close i u s test t).
  Proof.
    intros HV Hu Hv. split.
    2:{ destruct Hv as [[Hv Hmin]|[Hno ->]].
        - apply touch_ms in Hv; auto. destruct Hv as (T & -> & HT).
          pose proof (proj2 HV T (touch_in _ _ _ _ _ _ _ HT)) as [Hpos Hwh]. apply to_ms_whole in Hwh.
          unfold ms_to_datetime. destruct (Z.eqb_spec (to_ms T) 0); [lia|discriminate].
        - intros _ t Ht. eapply Hno. apply touch_ms; eauto. }
    intros t. destruct Hv as [[Hv Hmin]|[Hno ->]].
    - apply touch_ms in Hv; auto. destruct Hv as (T & -> & HT).
      pose proof (proj2 HV T (touch_in _ _ _ _ _ _ _ HT)) as [Hpos Hwh]. apply to_ms_whole in Hwh.
      assert (HL : least (touch idx close i u s test) T).
      { split; auto. intros U HU. specialize (Hmin (to_ms U)).
        pose proof (to_ms_whole U (proj2 (proj2 HV U (touch_in _ _ _ _ _ _ _ HU)))).
        assert (to_ms T <= to_ms U)%Z by (apply Hmin; apply touch_ms; eauto). lia. }
      unfold ms_to_datetime. destruct (Z.eqb_spec (to_ms T) 0); [lia|]. split.
      + intros [= <-]. now rewrite Hwh.
      + intros HL'. f_equal. rewrite Hwh. eapply least_unique; eauto.
    - cbn. split; [discriminate|]. intros [HT _]. exfalso. eapply Hno. apply touch_ms; eauto.
  Qed.

  Lemma touch_test_ext idx (close : list (ext A)) i u s p q t : (forall r, p r = q r) ->
    (touch idx close i u s p t <-> touch idx close i u s q t).
  Proof. intros E. unfold touch. split; intros (t0 & c0 & k & c & H'); exists t0, c0, k, c; [rewrite <- E|rewrite E]; exact H'. Qed.

  Lemma eltb_nan_r (r : ext A) : eltb r NaN = false.
  Proof. now destruct r. Qed.

  Lemma stop_barriers_nth f vol i (w : ext A) : nth_error vol i = Some w ->
    exists b, nth_error (stop_barriers f vol) i = Some b /\ forall r, eltb r b = below_stop f w r.
  Proof.
    intros Hw. unfold stop_barriers, below_stop. destruct (altb a0 f) eqn:E; rewrite nth_error_map, Hw; cbn; eexists; (split; [reflexivity|]);
      intros r; cbn; auto. apply eltb_nan_r.
  Qed.
  Lemma profit_barriers_nth f vol i (w : ext A) : nth_error vol i = Some w ->
    exists b, nth_error (profit_barriers f vol) i = Some b /\ forall r, eltb b r = above_profit f w r.
  Proof.
    intros Hw. unfold profit_barriers, above_profit. destruct (altb a0 f) eqn:E; rewrite nth_error_map, Hw; cbn; eexists; (split; [reflexivity|]);
      intros r; cbn; auto.
  Qed.
  Lemma stop_barriers_length f (vol : list (ext A)) : length (stop_barriers f vol) = length vol.
  Proof. unfold stop_barriers. destruct (altb a0 f); apply map_length. Qed.
  Lemma profit_barriers_length f (vol : list (ext A)) : length (profit_barriers f vol) = length vol.
  Proof. unfold profit_barriers. destruct (altb a0 f); apply map_length. Qed.

  Lemma rev_last {X} (l : list X) x r : rev l = x :: r -> nth_error l (length l - 1) = Some x.
  Proof.
    intros E. assert (l = rev r ++ [x]) as -> by (rewrite <- (rev_involutive l), E; reflexivity).
    rewrite app_length, nth_error_app2; cbn; [|lia]. now replace (length (rev r) + 1 - 1 - length (rev r)) with 0 by lia.
  Qed.

  Lemma shift_times_length n idx : length (shift_times n idx) = length idx.
  Proof. unfold shift_times. now rewrite map_length, seq_length. Qed.
  Lemma shift_times_nth n idx i : i < length idx ->
    exists v, nth_error (shift_times n idx) i = Some v /\ forall t, v = Some t <-> vertical idx n i t.
  Proof.
    intros Hi. unfold shift_times. rewrite nth_error_map, (nth_error_seq' _ _ _ Hi). cbn. eexists. split; [reflexivity|].
    intros t. unfold vertical. destruct (Z.leb_spec 0 (Z.of_nat i + n)).
    - split.
      + intros E. exists (Z.to_nat (Z.of_nat i + n)). split; auto. lia.
      + intros (p & E & Hp). rewrite <- E, Nat2Z.id. auto.
    - split; [discriminate|]. intros (p & E & _). lia.
  Qed.

  Lemma hits_length order expiry index (close side sl pt : list (ext A)) :
    length close = length index -> length expiry = length index -> length side = length index ->
    length sl = length index -> length pt = length index ->
    let h := get_horizontal_barriers_hit order expiry index close side sl pt in
    length (h_sl h) = length index /\ length (h_pt h) = length index.
  Proof.
    intros H1 H2 H3 H4 H5 h. unfold h, get_horizontal_barriers_hit.
    rewrite hits_sl_eq, hits_pt_eq by auto. rewrite !fold_upd_length. cbn. now rewrite repeat_length.
  Qed.

  (** What a row of barriers says. *)
  Definition barrier_spec idx (close : list (ext A)) n pt sl i (w s : ext A) (b : barriers) : Prop :=
    (forall t, b_vertical b = Some t <-> vertical idx n i t) /\
    (forall e t, search_end idx n i e -> (b_stop b = Some t <-> least (touch idx close i e s (below_stop sl w)) t)) /\
    (forall e, search_end idx n i e -> b_stop b = None -> forall t, ~ touch idx close i e s (below_stop sl w) t) /\
    (forall e t, search_end idx n i e -> (b_profit b = Some t <-> least (touch idx close i e s (above_profit pt w)) t)) /\
    (forall e, search_end idx n i e -> b_profit b = None -> forall t, ~ touch idx close i e s (above_profit pt w) t).

  Lemma tb_ok order idx (close vol side : list (ext A)) n sp pt sl : idx <> [] -> sp = true -> (altb pt a0 && altb sl a0 = false)%bool ->
    exists bs, triple_barrier_labeling order idx close (shift_times n idx) vol side sp pt sl = Ok bs.
  Proof.
    intros Hne -> Hf. unfold triple_barrier_labeling. cbn. rewrite Hf. destruct (rev idx) eqn:E; eauto.
    exfalso. apply Hne. rewrite <- (rev_involutive idx), E. reflexivity.
  Qed.

  Lemma tb_rows order idx (close vol side : list (ext A)) n sp pt sl bs :
    valid_times idx -> length close = length idx -> length vol = length idx -> length side = length idx ->
    Permutation order (seq 0 (length idx)) ->
    triple_barrier_labeling order idx close (shift_times n idx) vol side sp pt sl = Ok bs ->
    sp = true /\ (altb pt a0 && altb sl a0 = false)%bool /\ length bs = length idx /\
    forall i w s, nth_error vol i = Some w -> nth_error side i = Some s ->
      exists b, nth_error bs i = Some b /\ barrier_spec idx close n pt sl i w s b.
  Proof.
    intros HV Lc Lv Ls HP HB. unfold triple_barrier_labeling in HB.
    destruct sp; cbn in HB; [|discriminate]. split; auto.
    destruct (altb pt a0 && altb sl a0)%bool; [discriminate|]. split; auto.
    destruct (rev idx) as [|last rest] eqn:Er; [discriminate|]. apply rev_last in Er.
    set (ex := map (fun v => to_ms (match v with Some t => t | None => last end)) (shift_times n idx)) in HB.
    assert (Lex : length ex = length idx) by (unfold ex; now rewrite map_length, shift_times_length).
    pose proof (hits_length order ex (map to_ms idx) close side (stop_barriers sl vol) (profit_barriers pt vol)) as HL.
    rewrite map_length, stop_barriers_length, profit_barriers_length in HL. specialize (HL Lc Lex Ls Lv Lv). cbv zeta in HL.
    set (h := get_horizontal_barriers_hit order ex (map to_ms idx) close side (stop_barriers sl vol) (profit_barriers pt vol)) in *.
    destruct HL as [L1 L2].
    match type of HB with Ok ?y = Ok _ => assert (bs = y) as -> by congruence end. clear HB.
    split.
    { rewrite map_length. apply combine_length_eq; auto. apply combine_length_eq; auto. apply shift_times_length. }
    intros i w s Hw Hs.
    assert (Hi : i < length idx) by (rewrite <- Lv; apply nth_error_Some; congruence).
    destruct (shift_times_nth n idx i Hi) as (v & Hv & Hvert).
    set (u := match v with Some t => t | None => last end).
    assert (Hex : nth_error ex i = Some (to_ms u)) by (unfold ex; rewrite nth_error_map, Hv; reflexivity).
    assert (Hu : In u idx).
    { unfold u. destruct v as [t|]; [|eapply nth_error_In; eauto]. destruct (proj1 (Hvert t) eq_refl) as (p & _ & Hp). eapply nth_error_In; eauto. }
    assert (Hse : forall e, search_end idx n i e -> e = u).
    { intros e [He|[Hno He]].
      - apply Hvert in He. unfold u. now rewrite He.
      - unfold u. destruct v as [t|]; [exfalso; eapply Hno, Hvert; reflexivity|]. congruence. }
    destruct (stop_barriers_nth sl vol i w Hw) as (b1 & Hb1 & E1). destruct (profit_barriers_nth pt vol i w Hw) as (b2 & Hb2 & E2).
    pose proof (c25 ex (map to_ms idx) close side (stop_barriers sl vol) (profit_barriers pt vol)) as HC.
    rewrite map_length, stop_barriers_length, profit_barriers_length in HC.
    specialize (HC Lc Lex Ls Lv Lv order i (to_ms u) s b1 b2 HP Hex Hs Hb1 Hb2). cbv zeta in HC. fold h in HC.
    destruct HC as ((v1 & Hv1 & HC1) & (v2 & Hv2 & HC2)).
    eexists. split.
    { rewrite nth_error_map, (nth_error_combine _ _ i (v, v1) v2); [reflexivity| |exact Hv2]. apply nth_error_combine; auto. }
    cbn. split; [exact Hvert|]. split.
    - intros e t He. rewrite (Hse e He). cbn. rewrite (proj1 (hit_datetime idx close i u s _ v1 HV Hu HC1) t).
      split; apply least_ext; intros; apply touch_test_ext; auto.
    - split.
      { intros e He HN t Ht. rewrite (Hse e He) in Ht. eapply (proj2 (hit_datetime idx close i u s _ v1 HV Hu HC1) HN t).
        eapply touch_test_ext; [|exact Ht]. auto. }
      split.
      + intros e t He. rewrite (Hse e He). cbn. rewrite (proj1 (hit_datetime idx close i u s _ v2 HV Hu HC2) t).
        split; apply least_ext; intros; apply touch_test_ext; auto.
      + intros e He HN t Ht. rewrite (Hse e He) in Ht. eapply (proj2 (hit_datetime idx close i u s _ v2 HV Hu HC2) HN t).
        eapply touch_test_ext; [|exact Ht]. auto.
  Qed.


  Lemma search_end_exists idx n i : i < length idx -> exists e, search_end idx n i e.
  Proof.
    intros Hi. destruct (shift_times_nth n idx i Hi) as (v & _ & Hv). destruct v as [t|].
    - exists t. left. now apply Hv.
    - destruct (nth_some idx (length idx - 1) ltac:(lia)) as [e He]. exists e. right. split; auto. intros u Hu. apply Hv in Hu. discriminate.
  Qed.
  Lemma search_end_unique idx n i e e' : search_end idx n i e -> search_end idx n i e' -> e = e'.
  Proof.
    intros [(p & E1 & H1)|[N1 H1]] [(q & E2 & H2)|[N2 H2]].
    - assert (p = q) by lia. congruence.
    - exfalso. eapply N2. exists p. eauto.
    - exfalso. eapply N1. exists q. eauto.
    - congruence.
  Qed.


  Lemma first_barrier_spec idx (close : list (ext A)) n pt sl i w s b : i < length idx ->
    barrier_spec idx close n pt sl i w s b ->
    forall t, first_barrier b = Some t <-> least (barrier_time idx close i n pt sl w s) t.
  Proof.
    intros Hi (Hv & Hs & Hs0 & Hp & Hp0) t. destruct (search_end_exists idx n i Hi) as [e He].
    assert (HB : forall u, barrier_time idx close i n pt sl w s u <->
      b_vertical b = Some u \/ touch idx close i e s (below_stop sl w) u \/ touch idx close i e s (above_profit pt w) u).
    { intros u. unfold barrier_time. rewrite Hv. split.
      - intros [Hu|(e' & He' & Hu)]; auto. rewrite (search_end_unique _ _ _ _ _ He He'). auto.
      - intros [Hu|Hu]; auto. right. exists e. auto. }
    assert (Hsl : forall u, touch idx close i e s (below_stop sl w) u -> exists m, b_stop b = Some m /\ (m <= u)%Z).
    { intros u Hu. destruct (b_stop b) as [m|] eqn:E; [|exfalso; eapply Hs0; eauto]. exists m. split; auto. now apply (proj1 (Hs e m He) eq_refl). }
    assert (Hpl : forall u, touch idx close i e s (above_profit pt w) u -> exists m, b_profit b = Some m /\ (m <= u)%Z).
    { intros u Hu. destruct (b_profit b) as [m|] eqn:E; [|exfalso; eapply Hp0; eauto]. exists m. split; auto. now apply (proj1 (Hp e m He) eq_refl). }
    assert (Hs1 : forall m, b_stop b = Some m -> touch idx close i e s (below_stop sl w) m) by (intros m Hm; apply (proj1 (Hs e m He) Hm)).
    assert (Hp1 : forall m, b_profit b = Some m -> touch idx close i e s (above_profit pt w) m) by (intros m Hm; apply (proj1 (Hp e m He) Hm)).
    assert (HF : first_barrier b = Some t <-> least (fun u => b_vertical b = Some u \/ b_stop b = Some u \/ b_profit b = Some u) t).
    { unfold first_barrier, least. clear. destruct (b_vertical b) as [x|], (b_stop b) as [y|], (b_profit b) as [z|]; cbn; split;
      (try discriminate); (try (intros [= <-]; split; [|intros u [Hu|[Hu|Hu]]; try discriminate; injection Hu as <-; lia])).
      all: try (intros [[Hx|[Hx|Hx]] Hmin]; try discriminate; injection Hx as <-; f_equal).
      all: try (pose proof (Hmin x (or_introl eq_refl))).
      all: try (pose proof (Hmin y (or_intror (or_introl eq_refl)))).
      all: try (pose proof (Hmin z (or_intror (or_intror eq_refl)))).
      all: try lia.
      all: auto.
      - destruct (Z.min_spec x y) as [[? ->]|[? ->]]; destruct (Z.min_spec x z) as [[? E]|[? E]]; destruct (Z.min_spec y z) as [[? E']|[? E']]; rewrite ?E, ?E'; auto.
      - destruct (Z.min_spec x y) as [[? ->]|[? ->]]; auto.
      - destruct (Z.min_spec x z) as [[? ->]|[? ->]]; auto.
      - destruct (Z.min_spec y z) as [[? ->]|[? ->]]; auto. }
    rewrite HF. unfold least. setoid_rewrite HB. split.
    - intros [Ht Hmin]. split.
      + destruct Ht as [Ht|[Ht|Ht]]; auto.
      + intros u [Hu|[Hu|Hu]].
        * apply Hmin. auto.
        * destruct (Hsl u Hu) as (m & Hm & Hle). assert (t <= m)%Z by (apply Hmin; auto). lia.
        * destruct (Hpl u Hu) as (m & Hm & Hle). assert (t <= m)%Z by (apply Hmin; auto). lia.
    - intros [Ht Hmin]. assert (Hmin' : forall u, b_vertical b = Some u \/ b_stop b = Some u \/ b_profit b = Some u -> (t <= u)%Z).
      { intros u [Hu|[Hu|Hu]]; apply Hmin; auto. }
      split; auto. destruct Ht as [Ht|[Ht|Ht]]; auto.
      + destruct (Hsl t Ht) as (m & Hm & Hle). right. left. rewrite Hm. f_equal. specialize (Hmin' m (or_intror (or_introl Hm))). lia.
      + destruct (Hpl t Ht) as (m & Hm & Hle). right. right. rewrite Hm. f_equal. specialize (Hmin' m (or_intror (or_intror Hm))). lia.
  Qed.
End Rows.
