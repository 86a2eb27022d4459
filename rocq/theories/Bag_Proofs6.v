(** Proofs about fit with out-of-bag scoring: when it proceeds. *)
From Verif Require Import PreludeFacts QSum QSumFacts Num Boot_Model Boot_Spec Boot_Proofs Bag_Model Bag_Spec Bag_Proofs Bag_Proofs2 Bag_Proofs3 Bag_Proofs4 Bag_Proofs5.
Open Scope nat_scope.

Section Proofs.
  Context {num gen est0 model : Type}.
  Variables (np : numpy gen) (est : estimator num gen est0 model).
  Notation trained := (trained model).
  Notation fit := (fit num gen est0 model np est).

  Lemma add_masked_total nc (X : list (list num)) mask (val : list num -> list Q) features : (forall x, length (val x) = nc) ->
    forall P Xf, length mask = length X -> length P = length X -> Forall (fun r => length r = nc) P ->
    take_columns num (mask_sel X mask) features = Ok Xf -> exists P', add_masked P mask (map val Xf) = Ok P'.
  Proof.
    intros Hval. revert mask. induction X as [|x X IH]; intros [|b mask] [|row P] Xf; cbn [length]; try discriminate; intros Hm HP HF Hc.
    - cbn in Hc. injection Hc as <-. cbn. eauto.
    - injection Hm as Hm. injection HP as HP. inversion HF as [|? ? Hrow HF']; subst. destruct b; cbn [mask_sel] in Hc.
      + unfold take_columns in Hc. cbn [mapM] in Hc. destruct (mapM (get x) features) as [x'|] eqn:Ex; [|discriminate]. cbn [bind] in Hc.
        destruct (mapM _ (mask_sel X mask)) as [Xf'|] eqn:EX; [|discriminate]. cbn [bind] in Hc. injection Hc as <-. cbn [map add_masked].
        destruct (add_row_ok _ row (val x') eq_refl (Hval x')) as [row' ->]. cbn [bind].
        destruct (IH mask P Xf' Hm HP HF' EX) as [P' ->]. cbn [bind]. eauto.
      + cbn [add_masked]. destruct (IH mask P Xf Hm HP HF' Hc) as [P' ->]. cbn [bind]. eauto.
  Qed.
  Lemma mask_sel_forall {A} (R : A -> Prop) (X : list A) mask : Forall R X -> Forall R (mask_sel X mask).
  Proof.
    intros H. revert mask. induction H as [|x X Hx HX IH]; intros mask; [destruct mask; constructor|]. destruct mask as [|[|] mask]; cbn [mask_sel]; [constructor| |]; auto.
  Qed.
  Lemma mask_sel_none {A} (X : list A) mask : (forall b, In b mask -> b = false) -> mask_sel X mask = [].
  Proof.
    revert X. induction mask as [|b mask IH]; intros [|x X] H; try reflexivity; cbn [mask_sel].
    rewrite (H b (or_introl eq_refl)). apply IH. intros c Hc. apply H. now right.
  Qed.

  Definition leaves_out (n : nat) (t : trained) : Prop := exists i, i < n /\ ~ In i (t_samples _ t).

  Lemma round_ok nc X P t w : scores_rows est nc -> length P = length X -> Forall (fun r => length r = nc) P ->
    Forall (fun row => length row = w) X -> Forall (fun i => i < w) (t_features _ t) -> leaves_out (length X) t ->
    exists P', oob_round _ _ _ _ est X nc P t = Ok P' /\ length P' = length X /\ Forall (fun r => length r = nc) P'.
  Proof.
    intros Hs HP HF HX Hf (i & Hi & Hout).
    assert (Hok : exists P', oob_round _ _ _ _ est X nc P t = Ok P').
    { unfold oob_round. cbv zeta. set (mask := oob_mask (t_samples _ t) (length X)).
      assert (Hm : length mask = length X) by (unfold mask, oob_mask; now rewrite map_length, seq_length).
      unfold mask_select. rewrite Hm, Nat.eqb_refl. cbn [bind].
      destruct (columns_total (mask_sel X mask) (t_features _ t) w (mask_sel_forall _ _ _ HX) Hf) as [Xf Ec]. rewrite Ec. cbn [bind].
      assert (Hne : Xf <> []).
      { intros ->. apply columns_nil in Ec. destruct Ec as [Ec _]. specialize (Ec eq_refl).
        assert (Hb : In true mask).
        { unfold mask, oob_mask. apply in_map_iff. exists i. split; [|apply in_seq; lia].
          apply Bool.negb_true_iff. unfold Prelude.mem. apply Bool.not_true_iff_false. intros C. apply existsb_exists in C. destruct C as (z & Hz & E). apply Nat.eqb_eq in E. subst z. contradiction. }
        pose proof (mask_empty _ _ Hm Ec true Hb). discriminate. }
      destruct Hs as [(proba & f & Hp & Hrw & Hlen)|(f & Hp & Hrw & Hlt)]; rewrite Hp.
      - rewrite Hrw by exact Hne. cbn [bind]. apply (add_masked_total nc X mask (f (t_model _ t)) (t_features _ t)); auto.
      - rewrite Hrw by exact Hne. cbn [bind].
        assert (Er : existsb (fun c => nc <=? c) (map (f (t_model _ t)) Xf) = false).
        { apply Bool.not_true_iff_false. intros C. apply existsb_exists in C. destruct C as (c & Hc & E). apply in_map_iff in Hc. destruct Hc as (x & <- & _).
          apply Nat.leb_le in E. specialize (Hlt (t_model _ t) x). lia. }
        rewrite Er. cbn [raise_if bind]. rewrite map_map.
        apply (add_masked_total nc X mask (fun x => vote nc (f (t_model _ t) x)) (t_features _ t)); auto.
        intros x. unfold vote. now rewrite map_length, seq_length. }
    destruct Hok as [P' E]. exists P'. split; [exact E|].
    assert (Hc : exists val, casts est nc val).
    { destruct Hs as [(proba & f & Hp & Hrw & Hlen)|(f & Hp & Hrw & Hlt)].
      - exists f. split; [exact Hlen|]. left. eauto.
      - exists (fun m x => vote nc (f m x)). split; [intros; unfold vote; now rewrite map_length, seq_length|]. right. exists f. auto. }
    destruct Hc as [val Hc]. destruct (round_spec est nc val X P t P' Hc HP HF E) as (H1 & H2 & _). auto.
  Qed.
  Lemma round_fails nc X P t w : rejects_empty est ->
    Forall (fun i => i < w) (t_features _ t) -> (forall i, i < length X -> In i (t_samples _ t)) -> oob_round _ _ _ _ est X nc P t = Err ValueError.
  Proof.
    intros Hr Hf Hall. unfold oob_round. cbv zeta. set (mask := oob_mask (t_samples _ t) (length X)).
    assert (Hm : length mask = length X) by (unfold mask, oob_mask; now rewrite map_length, seq_length).
    unfold mask_select. rewrite Hm, Nat.eqb_refl. cbn [bind].
    rewrite mask_sel_none.
    2:{ intros b Hb. unfold mask, oob_mask in Hb. apply in_map_iff in Hb. destruct Hb as (i & <- & Hi). apply in_seq in Hi.
        apply Bool.negb_false_iff. unfold Prelude.mem. apply existsb_exists. exists i. split; [apply Hall; lia|apply Nat.eqb_refl]. }
    cbn [take_columns mapM bind]. unfold rejects_empty in Hr. destruct (predict_proba _ _ _ _ est); rewrite Hr; reflexivity.
  Qed.

  Lemma leaves_dec n (t : trained) : leaves_out n t \/ forall i, i < n -> In i (t_samples _ t).
  Proof.
    induction n as [|n IH]; [right; lia|]. destruct IH as [(i & Hi & Ho)|IH]; [left; exists i; split; [lia|exact Ho]|].
    destruct (in_dec Nat.eq_dec n (t_samples _ t)) as [Hn|Hn]; [right|left; exists n; split; [lia|exact Hn]].
    intros i Hi. destruct (Nat.eq_dec i n); [now subst|apply IH; lia].
  Qed.

  Lemma rounds_ok nc X w ts : scores_rows est nc -> Forall (fun row => length row = w) X -> (forall t, In t ts -> Forall (fun i => i < w) (t_features _ t)) ->
    forall P, length P = length X -> Forall (fun r => length r = nc) P ->
    ((forall t, In t ts -> leaves_out (length X) t) -> exists P', foldM (oob_round _ _ _ _ est X nc) P ts = Ok P') /\
    (rejects_empty est -> (exists t, In t ts /\ forall i, i < length X -> In i (t_samples _ t)) -> foldM (oob_round _ _ _ _ est X nc) P ts = Err ValueError).
  Proof.
    intros Hs HX. induction ts as [|t ts IH]; intros Hf P HP HF; cbn [foldM].
    - split; [eauto|]. intros _ (t & [] & _).
    - assert (Hft := Hf t (or_introl eq_refl)). assert (Hfs : forall t, In t ts -> Forall (fun i => i < w) (t_features _ t)) by (intros; apply Hf; now right).
      split.
      + intros Hl. destruct (round_ok nc X P t w Hs HP HF HX Hft (Hl t (or_introl eq_refl))) as (P1 & -> & H1 & H2). cbn [bind].
        apply (IH Hfs P1 H1 H2). intros t' Ht'. apply Hl. now right.
      + intros Hr (t' & Hin & Hall). destruct (leaves_dec (length X) t) as [Hl|Ha].
        * destruct (round_ok nc X P t w Hs HP HF HX Hft Hl) as (P1 & -> & H1 & H2). cbn [bind]. apply (IH Hfs P1 H1 H2); [exact Hr|].
          destruct Hin as [<-|Hin]; [destruct Hl as (i & Hi & Ho); destruct (Ho (Hall i Hi))|]. eauto.
        * rewrite (round_fails nc X P t w Hr Hft Ha). reflexivity.
  Qed.

  Lemma mapM_In {A B} (f : A -> result B) l r y : mapM f l = Ok r -> In y r -> exists x, In x l /\ f x = Ok y.
  Proof.
    revert r. induction l as [|x l IH]; intros r; cbn [mapM]; [intros [= <-] []|].
    destruct (f x) as [z|] eqn:E; [|discriminate]. cbn [bind]. destruct (mapM f l) as [zs|] eqn:El; [|discriminate]. cbn [bind]. intros [= <-] [<-|Hin].
    - exists x. split; [now left|exact E].
    - destruct (IH zs eq_refl Hin) as (x' & Hx' & E'). exists x'. split; [now right|exact E'].
  Qed.

  Lemma c52_oob p jobs sched (d : data num) (self : attributes model) h samples m idx : 0 < jobs -> libraries_fine np est -> samples_info_sets p = complete samples ->
    get_ind_matrix (complete samples) (price_bars p) = Ok (m, idx) -> NoDup (map fst samples) -> (0 < update_probs_every p)%Z ->
    length (d_index _ d) = length (d_rows _ d) -> Forall (fun row => length row = d_width _ d) (d_rows _ d) ->
    (d_weight _ d <> None -> support_sample_weight _ _ _ _ est = true) -> oob_score p = true -> acceptable p d self h ->
    exists h1 a1 ts, fit (with_oob p false) jobs sched d self h = Ok (h1, a1) /\ ensemble _ a1 = Some ts /\
      (scores_rows est (n_classes _ a1) ->
       ((forall t, In t ts -> exists i, i < length (d_rows _ d) /\ ~ In i (t_samples _ t)) ->
          exists h' a, fit p jobs sched d self h = Ok (h', a) /\ ensemble _ a = Some ts) /\
       (rejects_empty est -> (exists t, In t ts /\ forall i, i < length (d_rows _ d) -> In i (t_samples _ t)) ->
          fit p jobs sched d self h = Err ValueError)).
  Proof.
    intros Hj Hlib Hsam Em Hnd Hu Hidx Hrows Hsup Hoob Hacc.
    assert (Hwarm : warm_start p = false).
    { destruct Hacc as (_ & _ & Hno & _). destruct (warm_start p); [destruct Hno; auto|reflexivity]. }
    assert (Hacc' : acceptable (with_oob p false) d self h).
    { destruct Hacc as (H1 & H2 & H3 & H4). split; [exact H1|]. split; [exact H2|]. split; [cbn; intros [_ C]; discriminate|exact H4]. }
    destruct (c52_proceeds np est (with_oob p false) jobs sched d self h samples m idx Hj Hlib Hsam Em Hnd Hu Hidx Hrows Hsup eq_refl Hacc') as (h1 & a1 & E1).
    pose proof (fit_visible np est (with_oob p false) jobs sched d self h Hj) as V1. rewrite E1 in V1. cbn [visible] in V1. symmetry in V1.
    pose proof (fit_visible np est p jobs sched d self h Hj) as V2.
    assert (Ep : prepare p d self h = prepare (with_oob p false) d self h).
    { unfold prepare. cbn [with_oob samples_info_sets price_bars n_estimators max_samples max_features bootstrap_features oob_score warm_start random_state update_probs_every].
      rewrite Hwarm. reflexivity. }
    unfold pure_fit in V1, V2. rewrite Ep in V2.
    destruct (prepare (with_oob p false) d self h) as [[[[j nc] old] k]|e] eqn:Epr; [|discriminate]. cbn [bind] in V1, V2.
    destruct (prepare_inv _ _ _ _ _ _ _ _ Epr) as (m' & idx' & classes & y & ms & mf & Em' & Hcov & Hn & Hwd & Hlab & Hwt & Hy & Hne & Hms & Hmf & Hwo & Hold & Hk0 & Hk & Hnc & Hjob).
    cbn [with_oob warm_start] in Hold. rewrite Hwarm in Hold. subst old.
    assert (Hk1 : Nat.eqb k 0 = false) by (apply Nat.eqb_neq; cbn in Hk, Hne; lia). rewrite Hk1 in V1, V2.
    change (seeds_from np (with_oob p false) (length (@nil trained)) k) with (seeds_from np p (length (@nil trained)) k) in V1.
    destruct (do _ <- allowed est j ;; _) as [new|e] eqn:Enew; [|discriminate]. cbn [bind app] in V1, V2.
    change (oob_score (with_oob p false)) with false in V1. cbn [bind] in V1. injection V1 as <-.
    exists h1. eexists. exists new. split; [exact E1|]. split; [reflexivity|]. cbn [n_classes]. intros Hs.
    assert (Hfeat : forall t, In t new -> Forall (fun i => i < d_width _ d) (t_features _ t)).
    { intros t Ht. destruct (allowed est j) as [u|]; [|discriminate]. cbn [bind] in Enew.
      destruct (mapM_In _ _ _ _ Enew Ht) as (s & _ & Et). apply train_comes in Et.
      2:{ rewrite Hjob. cbn [j_X]. unfold given_weights. destruct (d_weight _ d) as [a0|]; [|apply repeat_length]. destruct (Hwt a0 eq_refl) as (w & -> & Hw). exact Hw. }
      destruct Et as (e & g & features & g' & samples' & lg & _ & Ef & _ & <- & _). rewrite Hjob in Ef. cbn [j_n_features j_max_features j_bootstrap_features] in Ef.
      destruct Hlib as (_ & _ & _ & Hri & Hsw).
      apply (proj1 (check_features_spec _ _ _ Hwd)) in Hmf. apply feature_size_bounds in Hmf.
      destruct (bootstrap_features _); [specialize (Hri g (d_width _ d) mf Hwd); now rewrite Ef in Hri|specialize (Hsw g (d_width _ d) mf ltac:(lia)); now rewrite Ef in Hsw]. }
    assert (Hly : length (j_y _ j) = length (d_rows _ d)).
    { rewrite Hjob. cbn [j_y]. destruct (validate_codes _ _ _ Hy) as (_ & Hl & _). congruence. }
    assert (Hz : length (repeat (repeat 0%Q nc) (length (j_y _ j))) = length (d_rows _ d)) by (rewrite repeat_length; exact Hly).
    assert (HF : Forall (fun r => length r = nc) (repeat (repeat 0%Q nc) (length (j_y _ j)))).
    { apply Forall_forall. intros r Hr. apply repeat_spec in Hr. subst r. apply repeat_length. }
    destruct (rounds_ok nc (d_rows _ d) (d_width _ d) new Hs Hrows Hfeat _ Hz HF) as [Hgood Hbad].
    rewrite Hoob in V2. unfold set_oob_score in V2. split.
    - intros Hl. destruct (Hgood Hl) as [P' EP]. rewrite EP in V2. cbn [bind] in V2.
      destruct (fit p jobs sched d self h) as [[h' a]|e]; [|discriminate]. cbn [visible] in V2. injection V2 as ->. eexists _, _. split; reflexivity.
    - intros Hr Hex. rewrite (Hbad Hr Hex) in V2. cbn [bind] in V2. destruct (fit p jobs sched d self h) as [[h' a]|e]; [discriminate|]. cbn [visible] in V2. congruence.
  Qed.

  (** Weights for an estimator that cannot use them. *)
  Lemma c52_weights p jobs sched (d : data num) (self : attributes model) h m idx : 0 < jobs ->
    get_ind_matrix (samples_info_sets p) (price_bars p) = Ok (m, idx) -> acceptable p d self h ->
    (forall ts, warm_start p = true -> ensemble _ self = Some ts -> (Z.of_nat (length ts) < n_estimators p)%Z) ->
    d_weight _ d <> None -> support_sample_weight _ _ _ _ est = false -> fit p jobs sched d self h = Err ValueError.
  Proof.
    intros Hj Em Hacc Hmore Hw Hsup. pose proof (fit_visible np est p jobs sched d self h Hj) as V. unfold pure_fit in V.
    destruct (proj2 (prepare_iff p d self h m idx Em) Hacc) as [[[[j nc] old] k] Ep]. rewrite Ep in V. cbn [bind] in V.
    destruct (prepare_inv _ _ _ _ _ _ _ _ Ep) as (m' & idx' & classes & y & ms & mf & Em' & Hcov & Hn & Hwd & Hlab & Hwt & Hy & Hne & Hms & Hmf & Hwo & Hold & Hk0 & Hk & Hnc & Hjob).
    assert (Hk1 : Nat.eqb k 0 = false).
    { apply Nat.eqb_neq. rewrite Hk. intros C. assert (n_estimators p - Z.of_nat (length old) <= 0)%Z by lia.
      rewrite Hold in H. destruct (warm_start p) eqn:Ew; [|cbn in H; lia]. destruct (ensemble _ self) as [ts|] eqn:Ee; [|cbn in H; lia]. specialize (Hmore ts eq_refl eq_refl). lia. }
    rewrite Hk1 in V. unfold allowed in V. rewrite Hjob in V. cbn [j_weight] in V. rewrite Hsup in V. destruct (d_weight _ d) eqn:Ewt; [|congruence]. cbn [negb raise_if bind] in V.
    destruct (fit p jobs sched d self h) as [[h' a]|e]; [discriminate|]. cbn [visible] in V. congruence.
  Qed.
End Proofs.
