(** Proofs for the triple-barrier labelling: the transformer. *)
From Coq Require Import Permutation String.
From Verif Require Import PreludeFacts Series Boot_Model Boot_Proofs Boot_Proofs2 DailyVol_Model Weights_Model Label_Model Label_Spec
  Cusum_Proofs Weights_Proofs2 DailyVol_Proofs Label_Proofs Label_Proofs2.
Local Open Scope nat_scope.

Section T.
  Context {A : Type} `{Arith A}.
  Implicit Types (y : frame A) (cfg : config A).

  Lemma align_length idx (v : list (Z * ext A)) : length (align idx v) = length idx.
  Proof. apply map_length. Qed.

  (** The volatility used for every row. *)
  Definition row_vols (daily_vol : list Z -> list (ext A) -> result (list (Z * ext A))) cfg y close : result (list (ext A)) :=
    if volatility_adjusted cfg then do v <- daily_vol (f_index y) close ;; Ok (align (f_index y) v)
    else Ok (map (fun _ => Fin a1) (f_index y)).
  Lemma row_vols_length daily_vol cfg y close vol : row_vols daily_vol cfg y close = Ok vol -> length vol = length (f_index y).
  Proof.
    unfold row_vols. destruct (volatility_adjusted cfg).
    - destruct (daily_vol _ _) as [v|]; cbn; [|discriminate]. intros [= <-]. apply align_length.
    - intros [= <-]. apply map_length.
  Qed.

  Definition build (v : ext A) (e : option Z) (l : option (ext A * ext A)) : out_row A :=
    if is_nan v then {| o_end := None; o_vol := v; o_return := NaN; o_label := NaN |}
    else match l with
         | Some (r, lab) => {| o_end := e; o_vol := v; o_return := r; o_label := lab |}
         | None => {| o_end := e; o_vol := v; o_return := NaN; o_label := NaN |}
         end.

  Definition row_spec cfg y close i (o : out_row A) (w : ext A) : Prop :=
    exists t0 s b l, nth_error (f_index y) i = Some t0 /\ event_side y i s /\
      barrier_spec (f_index y) close (n_expiration_bars cfg) (profit_taking_factor cfg) (stop_loss_factor cfg) i w s b /\
      label_row (f_index y) close (metalabeling cfg) (expiration_label cfg) t0 s b (first_barrier b) = Ok l /\
      o = build w (first_barrier b) l.

  Lemma transform_rows daily_vol order cfg y out : valid_times (f_index y) -> well_formed y ->
    Permutation order (seq 0 (length (f_index y))) ->
    transform daily_vol order cfg y = Ok out ->
    exists close vol, column y (close_column cfg) = Some close /\ row_vols daily_vol cfg y close = Ok vol /\
      side_column cfg = "side"%string /\
      (altb (profit_taking_factor cfg) a0 && altb (stop_loss_factor cfg) a0 = false)%bool /\
      (metalabeling cfg = true -> column y "side"%string <> None) /\
      f_index y <> [] /\
      length out = length (f_index y) /\
      forall i w, nth_error vol i = Some w -> exists o, nth_error out i = Some o /\ row_spec cfg y close i o w.
  Proof.
    intros HV HW HP HT. unfold transform in HT.
    destruct (column y (close_column cfg)) as [close|] eqn:Ec; [|discriminate].
    destruct (metalabeling cfg && _)%bool eqn:Em; [discriminate|].
    fold (row_vols daily_vol cfg y close) in HT.
    destruct (row_vols daily_vol cfg y close) as [vol|] eqn:Ev; cbn [bind] in HT; [|discriminate].
    match type of HT with bind ?x _ = _ => destruct x as [side|] eqn:Es; cbn [bind] in HT; [|discriminate] end.
    match type of HT with bind ?x _ = _ => destruct x as [bs|] eqn:Eb; cbn [bind] in HT; [|discriminate] end.
    match type of HT with bind ?x _ = _ => destruct x as [[]|] eqn:En; cbn [bind] in HT; [|discriminate] end.
    match type of HT with bind ?x _ = _ => destruct x as [labels|] eqn:El; cbn [bind] in HT; [|discriminate] end.
    pose proof (HW _ _ Ec) as Lc. pose proof (row_vols_length _ _ _ _ _ Ev) as Lv.
    assert (Hne : f_index y <> []).
    { intros E. unfold triple_barrier_labeling in Eb. rewrite E in Eb. cbn [rev] in Eb.
      match type of Eb with (if ?x then _ else if ?z then _ else _) = _ => destruct x, z; discriminate end. }
    assert (Hside : side_column cfg = "side"%string).
    { unfold triple_barrier_labeling in Eb. destruct (String.eqb (side_column cfg) SIDE) eqn:E; [|discriminate]. now apply String.eqb_eq in E. }
    assert (Ls : length side = length (f_index y) /\ forall i s, nth_error side i = Some s -> event_side y i s).
    { unfold event_side. unfold SIDE in Es. destruct (column y "side"%string) as [l|] eqn:E.
      - rewrite Hside, E in Es. injection Es as <-. split; [eapply HW; eauto|auto].
      - injection Es as <-. rewrite map_length. split; auto. intros i s Hs. rewrite nth_error_map in Hs.
        destruct (nth_error (f_index y) i); [|discriminate]. cbn in Hs. congruence. }
    destruct Ls as [Ls Hs].
    pose proof (tb_rows order (f_index y) close vol side _ _ _ _ bs HV Lc Lv Ls HP Eb) as (Hsp & Hf & Lb & Hrow).
    pose proof (mapM_length _ _ _ El) as Ll.
    rewrite (combine_length_eq _ _ (length (f_index y))) in Ll; [|apply combine_length_eq; auto; apply combine_length_eq; auto|now rewrite map_length].
    exists close, vol. split; auto. split; auto. split; auto. split; auto. split.
    { intros Hm. rewrite Hm, Hside in Em. cbn in Em. destruct (column y "side"%string); congruence. }
    split; auto.
    match type of HT with Ok ?z = Ok _ => assert (out = z) as -> by congruence end. clear HT. split.
    { rewrite map_length. apply combine_length_eq; auto. apply combine_length_eq; auto. now rewrite map_length. }
    intros i w Hw.
    assert (Hi : i < length (f_index y)) by (rewrite <- Lv; apply nth_error_Some; congruence).
    destruct (nth_some side i ltac:(lia)) as [s Hsi]. destruct (nth_some (f_index y) i Hi) as [t0 Ht0].
    destruct (Hrow i w s Hw Hsi) as (b & Hb & HB).
    assert (He : nth_error (map first_barrier bs) i = Some (first_barrier b)) by (rewrite nth_error_map, Hb; reflexivity).
    destruct (mapM_nth _ _ _ i (t0, s, b, first_barrier b) El) as (l & Hl & HL).
    { repeat apply nth_error_combine; auto. }
    exists (build w (first_barrier b) l). split.
    - rewrite nth_error_map, (nth_error_combine _ _ i (w, first_barrier b) l); [reflexivity|apply nth_error_combine; auto|auto].
    - exists t0, s, b, l. split; [exact Ht0|]. split; [now apply Hs|]. split; [exact HB|]. now split.
  Qed.

  Lemma build_vol v e l : o_vol (build v e l) = v.
  Proof. unfold build. destruct (is_nan v); auto. destruct l as [[]|]; auto. Qed.
  Lemma build_end v e l : is_nan v = false -> o_end (build v e l) = e.
  Proof. unfold build. intros ->. destruct l as [[]|]; auto. Qed.

  Lemma event_side_unique y i (s s' : ext A) : event_side y i s -> event_side y i s' -> s = s'.
  Proof. unfold event_side. destruct (column y _); congruence. Qed.

  Lemma out_row_vol daily_vol order cfg y out i o : valid_times (f_index y) -> well_formed y ->
    Permutation order (seq 0 (length (f_index y))) ->
    transform daily_vol order cfg y = Ok out -> nth_error out i = Some o ->
    exists close vol, column y (close_column cfg) = Some close /\ row_vols daily_vol cfg y close = Ok vol /\
      nth_error vol i = Some (o_vol o) /\ i < length (f_index y) /\ row_spec cfg y close i o (o_vol o).
  Proof.
    intros HV HW HP HT Ho. destruct (transform_rows _ _ _ _ _ HV HW HP HT) as (close & vol & Hc & Hvol & _ & _ & _ & _ & Lo & Hrow).
    exists close, vol. split; auto. split; auto.
    assert (Hi : i < length (f_index y)) by (rewrite <- Lo; apply nth_error_Some; congruence).
    destruct (nth_some vol i) as [w Hw]; [now rewrite (row_vols_length _ _ _ _ _ Hvol)|].
    destruct (Hrow i w Hw) as (o' & Ho' & HR). assert (o' = o) by congruence. subst o'.
    assert (o_vol o = w) as E by (destruct HR as (t0 & s & b & l & _ & _ & _ & _ & ->); apply build_vol).
    rewrite E. auto.
  Qed.

  Lemma c27 daily_vol order cfg y close out i o s : valid_times (f_index y) -> well_formed y ->
    Permutation order (seq 0 (length (f_index y))) ->
    column y (close_column cfg) = Some close -> event_side y i s ->
    transform daily_vol order cfg y = Ok out -> nth_error out i = Some o -> is_nan (o_vol o) = false ->
    forall t, o_end o = Some t <->
      least (barrier_time (f_index y) close i (n_expiration_bars cfg) (profit_taking_factor cfg) (stop_loss_factor cfg) (o_vol o) s) t.
  Proof.
    intros HV HW HP Hc Hs HT Ho Hnan t.
    destruct (out_row_vol _ _ _ _ _ _ _ HV HW HP HT Ho) as (close' & vol & Hc' & Hvol & Hw & Hi & (t0 & s' & b & l & Ht0 & Hs' & HB & HL & E)).
    assert (close' = close) by congruence. subst close'. rewrite (event_side_unique _ _ _ _ Hs Hs').
    rewrite E at 1. rewrite build_end by auto. now apply first_barrier_spec.
  Qed.

  Lemma c27_bounds daily_vol order cfg y out i o t t0 : valid_times (f_index y) -> well_formed y ->
    Permutation order (seq 0 (length (f_index y))) -> (0 <= n_expiration_bars cfg)%Z ->
    transform daily_vol order cfg y = Ok out -> nth_error out i = Some o -> o_end o = Some t ->
    nth_error (f_index y) i = Some t0 ->
    In t (f_index y) /\ (t0 <= t)%Z /\ (forall v, vertical (f_index y) (n_expiration_bars cfg) i v -> (t <= v)%Z).
  Proof.
    intros HV HW HP Hn HT Ho He Ht0.
    destruct (out_row_vol _ _ _ _ _ _ _ HV HW HP HT Ho) as (close & vol & Hc & Hvol & Hw & Hi & (t0' & s & b & l & Ht0' & Hs & HB & HL & E)).
    destruct (is_nan (o_vol o)) eqn:En.
    { rewrite E in He. unfold build in He. rewrite En in He. discriminate. }
    pose proof (proj1 (c27 _ _ _ _ _ _ _ _ _ HV HW HP Hc Hs HT Ho En t) He) as [Hb Hmin].
    split; [|split].
    - destruct Hb as [(p & _ & Hp)|(e & _ & [Ht|Ht])].
      + eapply nth_error_In; eauto.
      + eapply touch_in; eauto.
      + eapply touch_in; eauto.
    - destruct Hb as [(p & Ep & Hp)|(e & _ & [Ht|Ht])].
      + apply (proj1 (incZ_nth_le _ (proj1 HV) i p t0 t Ht0 Hp)). lia.
      + destruct Ht as (x & c0 & k & c & H1 & _ & _ & _ & H5 & _). assert (x = t0) by congruence. lia.
      + destruct Ht as (x & c0 & k & c & H1 & _ & _ & _ & H5 & _). assert (x = t0) by congruence. lia.
    - intros v Hv. apply Hmin. now left.
  Qed.

  Lemma c27_novol daily_vol order cfg y out i o : valid_times (f_index y) -> well_formed y ->
    Permutation order (seq 0 (length (f_index y))) ->
    transform daily_vol order cfg y = Ok out -> nth_error out i = Some o -> is_nan (o_vol o) = true ->
    o_end o = None /\ o_return o = NaN /\ o_label o = NaN.
  Proof.
    intros HV HW HP HT Ho Hnan.
    destruct (out_row_vol _ _ _ _ _ _ _ HV HW HP HT Ho) as (close & vol & Hc & Hvol & Hw & Hi & (t0 & s & b & l & Ht0 & Hs & HB & HL & E)).
    rewrite E. unfold build. rewrite Hnan. auto.
  Qed.


  Lemma loc_value_in idx (close : list (ext A)) t : increasingZ idx -> length close = length idx -> In t idx ->
    exists p c, nth_error idx p = Some t /\ nth_error close p = Some c /\ loc_value idx close t = Ok c.
  Proof.
    intros HI HL Hin. apply In_nth_error in Hin. destruct Hin as [p Hp].
    destruct (nth_some close p) as [c Hc].
    { rewrite HL. apply nth_error_Some. congruence. }
    exists p, c. split; auto. split; auto. eapply loc_value_nth; eauto.
  Qed.

  Lemma barrier_in idx (close : list (ext A)) i n pt sl w s t : barrier_time idx close i n pt sl w s t -> In t idx.
  Proof.
    intros [(p & _ & Hp)|(e & _ & [Ht|Ht])].
    - eapply nth_error_In; eauto.
    - eapply touch_in; eauto.
    - eapply touch_in; eauto.
  Qed.

  Lemma np_sign_spec (r : ext A) : np_sign r = sign_label r.
  Proof. destruct r as [x| | |]; auto. unfold np_sign, sign_label, esign, asign, eltb. destruct (altb x a0), (altb a0 x); auto. Qed.

  Lemma c28 daily_vol order cfg y close out i o s t : valid_times (f_index y) -> well_formed y ->
    Permutation order (seq 0 (length (f_index y))) ->
    column y (close_column cfg) = Some close -> event_side y i s ->
    transform daily_vol order cfg y = Ok out -> nth_error out i = Some o -> o_end o = Some t ->
    exists p c0 c, nth_error (f_index y) p = Some t /\ nth_error close i = Some c0 /\ nth_error close p = Some c /\
      let r := if metalabeling cfg then emul (esub (ediv c c0) (Fin a1)) s else esub (ediv c c0) (Fin a1) in
      let hit := touched (f_index y) close i (n_expiration_bars cfg) (profit_taking_factor cfg) (stop_loss_factor cfg) (o_vol o) s in
      o_return o = r /\
      (expiration_label cfg = true -> ~ hit -> o_label o = Fin a0) /\
      (expiration_label cfg = false \/ hit -> o_label o = if metalabeling cfg then success_label r else sign_label r).
  Proof.
    intros HV HW HP Hc Hs HT Ho He.
    destruct (out_row_vol _ _ _ _ _ _ _ HV HW HP HT Ho) as (close' & vol & Hc' & Hvol & Hw & Hi & (t0 & s' & b & l & Ht0 & Hs' & HB & HL & E)).
    assert (close' = close) by congruence. subst close'. rewrite (event_side_unique _ _ _ _ Hs' Hs) in HB, HL. clear s' Hs'.
    destruct (is_nan (o_vol o)) eqn:En.
    { rewrite E in He. unfold build in He. rewrite En in He. discriminate. }
    pose proof (HW _ _ Hc) as Lc.
    assert (Hfb : first_barrier b = Some t) by (rewrite <- He, E; rewrite build_end; auto).
    pose proof (proj1 (first_barrier_spec _ _ _ _ _ _ _ _ _ Hi HB t) Hfb) as [Hbt _].
    destruct (loc_value_in _ close t (proj1 HV) Lc (barrier_in _ _ _ _ _ _ _ _ _ Hbt)) as (p & c & Hp & Hcp & Hloc).
    destruct (nth_some close i ltac:(lia)) as [c0 Hc0].
    pose proof (loc_value_nth (f_index y) close i t0 c0 (proj1 HV) Ht0 Hc0) as Hloc0.
    exists p, c0, c. split; auto. split; auto. split; auto. intros r hit.
    unfold label_row in HL. rewrite Hfb in HL. rewrite Hloc in HL. cbn [bind] in HL. rewrite Hloc0 in HL. cbn [bind] in HL.
    fold r in HL.
    match type of HL with Ok (Some (_, ?L)) = Ok _ => set (lab := L) in HL; assert (El : l = Some (r, lab)) by congruence end.
    clear HL. rewrite El in E. unfold build in E. rewrite En in E.
    assert (o_return o = r /\ o_label o = lab) as [-> ->] by (rewrite E; auto). clear E El.
    split; auto.
    assert (Hhit : (b_stop b = None /\ b_profit b = None) <-> ~ hit).
    { destruct HB as (_ & Hst & Hs0 & Hpr & Hp0). destruct (search_end_exists (f_index y) (n_expiration_bars cfg) i Hi) as [e Hse]. split.
      - intros [N1 N2] (e' & u & He' & [Hu|Hu]); [eapply Hs0; eauto|eapply Hp0; eauto].
      - intros Hno. split.
        + destruct (b_stop b) as [u|]; auto. exfalso. apply Hno. exists e, u. split; auto. left. apply (proj1 (Hst e u Hse) eq_refl).
        + destruct (b_profit b) as [u|]; auto. exfalso. apply Hno. exists e, u. split; auto. right. apply (proj1 (Hpr e u Hse) eq_refl). }
    assert (Hl0 : (if metalabeling cfg then meta_label r else np_sign r) = if metalabeling cfg then success_label r else sign_label r).
    { destruct (metalabeling cfg); auto. apply np_sign_spec. }
    unfold lab. split.
    - intros -> Hno. apply Hhit in Hno. destruct Hno as [-> ->]. auto.
    - intros [->|Hy]; auto. destruct (expiration_label cfg); auto.
      destruct (b_stop b) as [u|] eqn:E1, (b_profit b) as [u'|] eqn:E2; auto. exfalso. now apply (proj1 Hhit).
  Qed.

  Lemma c28_noend daily_vol order cfg y out i o : valid_times (f_index y) -> well_formed y ->
    Permutation order (seq 0 (length (f_index y))) ->
    transform daily_vol order cfg y = Ok out -> nth_error out i = Some o -> o_end o = None ->
    o_return o = NaN /\ o_label o = NaN.
  Proof.
    intros HV HW HP HT Ho He.
    destruct (out_row_vol _ _ _ _ _ _ _ HV HW HP HT Ho) as (close & vol & Hc & Hvol & Hw & Hi & (t0 & s & b & l & Ht0 & Hs & HB & HL & E)).
    rewrite E. unfold build. destruct (is_nan (o_vol o)) eqn:En; auto.
    assert (Hfb : first_barrier b = None) by (rewrite <- He, E; rewrite build_end; auto).
    rewrite Hfb in HL. cbn in HL. assert (l = None) as -> by congruence. auto.
  Qed.

  Lemma no_first_barrier idx (close : list (ext A)) n pt sl i w s b : i < length idx -> barrier_spec idx close n pt sl i w s b ->
    first_barrier b = None -> forall t, ~ barrier_time idx close i n pt sl w s t.
  Proof.
    intros Hi (Hv & _ & Hs & _ & Hp) E t. unfold first_barrier in E.
    destruct (b_vertical b) as [v|] eqn:E1, (b_stop b) as [st|] eqn:E2, (b_profit b) as [p|] eqn:E3; cbn in E; try discriminate.
    intros [V|(e & He & [T|T])].
    - apply Hv in V. discriminate.
    - exact (Hs e He eq_refl t T).
    - exact (Hp e He eq_refl t T).
  Qed.
  Lemma event_volatility_row daily_vol cfg y close vol i w : row_vols daily_vol cfg y close = Ok vol -> i < length (f_index y) ->
    (event_volatility daily_vol cfg y close i w <-> nth_error vol i = Some w).
  Proof.
    intros Hv Hi. destruct (nth_some (f_index y) i Hi) as [t Ht]. unfold event_volatility. unfold row_vols in Hv.
    destruct (volatility_adjusted cfg).
    - destruct (daily_vol (f_index y) close) as [v|] eqn:E; cbn [bind] in Hv; [|discriminate]. injection Hv as <-.
      unfold align. rewrite nth_error_map, Ht. cbn [option_map]. split.
      + intros (v' & t' & Ev & Et & ->). injection Ev as <-. injection Et as <-. reflexivity.
      + intros [= <-]. exists v, t. auto.
    - injection Hv as <-. rewrite nth_error_map, Ht. cbn [option_map]. split; [now intros ->|now intros [= <-]].
  Qed.
  Lemma no_rows_true ends : no_rows ends = true <-> forall i e, nth_error ends i = Some e -> e = None.
  Proof.
    unfold no_rows. rewrite forallb_forall. split.
    - intros F i e Hi. specialize (F e (nth_error_In _ _ Hi)). now destruct e.
    - intros F e Hi. apply In_nth_error in Hi. destruct Hi as [i Hi]. now rewrite (F i e Hi).
  Qed.

  Lemma transform_outcome daily_vol order cfg y close : valid_times (f_index y) -> well_formed y ->
    Permutation order (seq 0 (length (f_index y))) -> f_index y <> [] ->
    column y (close_column cfg) = Some close -> side_column cfg = "side"%string ->
    (metalabeling cfg = true -> column y "side"%string <> None) ->
    (altb (profit_taking_factor cfg) a0 && altb (stop_loss_factor cfg) a0 = false)%bool ->
    (volatility_adjusted cfg = true -> exists v, daily_vol (f_index y) close = Ok v) ->
    ((metalabeling cfg = true -> some_end daily_vol cfg y close) ->
      exists out, transform daily_vol order cfg y = Ok out /\ length out = length (f_index y)) /\
    (metalabeling cfg = true -> ~ some_end daily_vol cfg y close -> transform daily_vol order cfg y = Err ValueError).
  Proof.
    intros HV HW HP Hne Hc Hside Hm Hf Hvol.
    assert (((metalabeling cfg = true -> some_end daily_vol cfg y close) -> exists out, transform daily_vol order cfg y = Ok out) /\
      (metalabeling cfg = true -> ~ some_end daily_vol cfg y close -> transform daily_vol order cfg y = Err ValueError)) as [O1 O2].
    2:{ split; [|exact O2]. intros HS. destruct (O1 HS) as [out Hout]. exists out. split; auto.
        now destruct (transform_rows _ _ _ _ _ HV HW HP Hout) as (_ & _ & _ & _ & _ & _ & _ & _ & Lo & _). }
    unfold transform. rewrite Hc.
    assert ((metalabeling cfg && match column y (side_column cfg) with Some _ => false | None => true end)%bool = false) as ->.
    { destruct (metalabeling cfg); auto. rewrite Hside. destruct (column y "side"%string); auto. exfalso. now apply Hm. }
    fold (row_vols daily_vol cfg y close).
    assert (exists vol, row_vols daily_vol cfg y close = Ok vol) as [vol Ev].
    { unfold row_vols. destruct (volatility_adjusted cfg); eauto. destruct (Hvol eq_refl) as [v ->]. cbn. eauto. }
    rewrite Ev. cbn [bind]. pose proof (row_vols_length _ _ _ _ _ Ev) as Lv. pose proof (HW _ _ Hc) as Lc.
    match goal with |- context[bind (match column y SIDE with None => ?a1 | Some z => @?a2 z end) _] =>
      set (sd := match column y SIDE with None => a1 | Some z => a2 z end); assert (exists side, sd = Ok side /\ length side = length (f_index y)) as (side & Es & Ls) end.
    { unfold sd, SIDE. rewrite Hside. destruct (column y "side"%string) eqn:E; eexists; split; try reflexivity; [eapply HW; eauto|apply map_length]. }
    rewrite Es. cbn [bind].
    destruct (tb_ok order (f_index y) close vol side (n_expiration_bars cfg) (String.eqb (side_column cfg) SIDE) (profit_taking_factor cfg) (stop_loss_factor cfg)) as [bs Eb]; auto.
    { rewrite Hside. apply String.eqb_refl. }
    rewrite Eb. cbn [bind]. destruct (tb_rows _ _ _ _ _ _ _ _ _ bs HV Lc Lv Ls HP Eb) as (_ & _ & Lb & Hrow).
    assert (HE : no_rows (map first_barrier bs) = true <-> ~ some_end daily_vol cfg y close).
    { rewrite no_rows_true. split.
      - intros F (i & s & w & t & Hi & Hs & Hw & HB). apply (event_volatility_row _ _ _ _ _ _ _ Ev Hi) in Hw.
        destruct (nth_some side i ltac:(lia)) as [s' Hs'].
        assert (s' = s) as ->.
        { apply (event_side_unique y i); [|exact Hs]. unfold event_side. unfold sd, SIDE in Es. destruct (column y "side"%string) as [l|] eqn:E.
          - rewrite Hside, E in Es. injection Es as <-. exact Hs'.
          - injection Es as <-. rewrite nth_error_map in Hs'. destruct (nth_error (f_index y) i); [|discriminate]. cbn in Hs'. congruence. }
        destruct (Hrow i w s Hw Hs') as (b & Hb & HBS). apply (no_first_barrier _ _ _ _ _ _ _ _ _ Hi HBS) in HB; [exact HB|].
        apply (F i). rewrite nth_error_map, Hb. reflexivity.
      - intros F i e He. rewrite nth_error_map in He. destruct (nth_error bs i) as [b|] eqn:Hb; [|discriminate]. cbn in He. injection He as <-.
        destruct (first_barrier b) as [t|] eqn:Et; [|reflexivity]. exfalso. apply F.
        assert (Hi : i < length (f_index y)) by (rewrite <- Lb; apply nth_error_Some; congruence).
        destruct (nth_some side i ltac:(lia)) as [s Hs]. destruct (nth_some vol i ltac:(lia)) as [w Hw].
        destruct (Hrow i w s Hw Hs) as (b' & Hb' & HBS). assert (b' = b) by congruence. subst b'.
        exists i, s, w, t. split; [exact Hi|]. split; [|split; [now apply (event_volatility_row _ _ _ _ _ _ _ Ev Hi)|
          exact (proj1 (proj1 (first_barrier_spec _ _ _ _ _ _ _ _ _ Hi HBS t) Et))]].
        unfold event_side. unfold sd, SIDE in Es. destruct (column y "side"%string) as [l|] eqn:E.
        + rewrite Hside, E in Es. injection Es as <-. exact Hs.
        + injection Es as <-. rewrite nth_error_map in Hs. destruct (nth_error (f_index y) i); [|discriminate]. cbn in Hs. congruence. }
    split.
    2:{ intros Hmt HN. apply HE in HN. rewrite Hmt, HN. reflexivity. }
    intros HS. assert ((metalabeling cfg && no_rows (map first_barrier bs))%bool = false) as ->.
    { destruct (metalabeling cfg) eqn:Em; [|reflexivity]. cbn [andb]. destruct (no_rows _) eqn:En; [|reflexivity].
      exfalso. exact (proj1 HE eq_refl (HS eq_refl)). }
    cbn [raise_if bind].
    match goal with |- exists _, bind (mapM ?f ?l) _ = _ => assert (exists ls, mapM f l = Ok ls) as [ls ->]; [|cbn [bind]; eauto] end.
    assert (Hall : forall (B C : Type) (f : B -> result C) l, (forall x, In x l -> exists z, f x = Ok z) -> exists zs, mapM f l = Ok zs).
    { intros B C f l. induction l as [|x l IH]; intros Hx; cbn; eauto.
      destruct (Hx x (or_introl eq_refl)) as [z ->]. destruct IH as [zs ->]; [intros; apply Hx; now right|]. cbn. eauto. }
    apply Hall. intros [[[t s] b] e] Hin.
    apply In_nth_error in Hin. destruct Hin as [i Hi].
    apply nth_error_combine_inv in Hi. destruct Hi as [Hi He]. apply nth_error_combine_inv in Hi. destruct Hi as [Hi Hb].
    apply nth_error_combine_inv in Hi. destruct Hi as [Ht Hs].
    assert (Hi : i < length (f_index y)) by (apply nth_error_Some; congruence).
    destruct (nth_some vol i ltac:(lia)) as [w Hw]. destruct (Hrow i w s Hw Hs) as (b' & Hb' & HB). assert (b' = b) by congruence. subst b'.
    rewrite nth_error_map, Hb in He. cbn in He. assert (e = first_barrier b) by congruence. subst e. unfold label_row.
    destruct (first_barrier b) as [u|] eqn:Eu; eauto.
    pose proof (proj1 (first_barrier_spec _ _ _ _ _ _ _ _ _ Hi HB u) Eu) as [Hbt _].
    destruct (loc_value_in _ close u (proj1 HV) Lc (barrier_in _ _ _ _ _ _ _ _ _ Hbt)) as (p & c & Hp & Hcp & ->).
    destruct (loc_value_in _ close t (proj1 HV) Lc (nth_error_In _ _ Ht)) as (p' & c' & Hp' & Hcp' & ->). cbn [bind]. eauto.
  Qed.

  Lemma transform_succeeds daily_vol order cfg y close : valid_times (f_index y) -> well_formed y ->
    Permutation order (seq 0 (length (f_index y))) -> f_index y <> [] ->
    column y (close_column cfg) = Some close -> side_column cfg = "side"%string ->
    (metalabeling cfg = true -> column y "side"%string <> None) ->
    (altb (profit_taking_factor cfg) a0 && altb (stop_loss_factor cfg) a0 = false)%bool ->
    (volatility_adjusted cfg = true -> exists v, daily_vol (f_index y) close = Ok v) ->
    (metalabeling cfg = true -> some_end daily_vol cfg y close) ->
    exists out, transform daily_vol order cfg y = Ok out /\ length out = length (f_index y).
  Proof. intros HV HW HP Hne Hc Hside Hm Hf Hvol. exact (proj1 (transform_outcome daily_vol order cfg y close HV HW HP Hne Hc Hside Hm Hf Hvol)). Qed.

  Lemma c30_factors_value daily_vol order cfg y close :
    altb (profit_taking_factor cfg) a0 = true -> altb (stop_loss_factor cfg) a0 = true ->
    column y (close_column cfg) = Some close -> side_column cfg = "side"%string ->
    (metalabeling cfg = true -> column y "side"%string <> None) ->
    (volatility_adjusted cfg = true -> exists v, daily_vol (f_index y) close = Ok v) ->
    transform daily_vol order cfg y = Err ValueError.
  Proof.
    intros H1 H2 Hc Hs Hm Hv. unfold transform. rewrite Hc, Hs.
    assert ((metalabeling cfg && match column y "side" with Some _ => false | None => true end)%bool = false) as ->.
    { destruct (metalabeling cfg); auto. destruct (column y "side"%string); auto. exfalso. now apply Hm. }
    fold (row_vols daily_vol cfg y close).
    assert (exists vol, row_vols daily_vol cfg y close = Ok vol) as [vol ->].
    { unfold row_vols. destruct (volatility_adjusted cfg); eauto. destruct (Hv eq_refl) as [v ->]. cbn. eauto. }
    cbn [bind]. unfold SIDE. destruct (column y "side"%string); cbn [bind]; unfold triple_barrier_labeling; cbn; rewrite H1, H2; auto.
  Qed.
  Lemma c30_close daily_vol order cfg y : column y (close_column cfg) = None -> transform daily_vol order cfg y = Err AssertionError.
  Proof. intros E. unfold transform. now rewrite E. Qed.
  Lemma c30_meta daily_vol order cfg y : metalabeling cfg = true -> column y (side_column cfg) = None ->
    transform daily_vol order cfg y = Err AssertionError.
  Proof. intros E1 E2. unfold transform. rewrite E1, E2. now destruct (column y (close_column cfg)). Qed.
  Lemma c30_side daily_vol order cfg y : side_column cfg <> "side"%string -> exists e, transform daily_vol order cfg y = Err e.
  Proof.
    intros Hs. unfold transform. destruct (column y (close_column cfg)) as [close|]; [|eauto].
    destruct (_ && _)%bool; [eauto|].
    match goal with |- exists _, bind ?x _ = _ => destruct x; cbn [bind]; [|eauto] end.
    match goal with |- exists _, bind ?x _ = _ => destruct x; cbn [bind]; [|eauto] end.
    unfold triple_barrier_labeling. assert (String.eqb (side_column cfg) SIDE = false) as -> by (apply String.eqb_neq; exact Hs). cbn. eauto.
  Qed.
  Lemma c30_side_kind daily_vol order cfg y close : side_column cfg <> "side"%string ->
    column y (close_column cfg) = Some close -> (metalabeling cfg = true -> column y (side_column cfg) <> None) ->
    (volatility_adjusted cfg = true -> exists v, daily_vol (f_index y) close = Ok v) ->
    transform daily_vol order cfg y =
      Err (match column y "side"%string, column y (side_column cfg) with Some _, None => KeyError | _, _ => AssertionError end).
  Proof.
    intros Hs Hc Hm Hv. unfold transform. rewrite Hc.
    assert ((metalabeling cfg && match column y (side_column cfg) with Some _ => false | None => true end)%bool = false) as ->.
    { destruct (metalabeling cfg); auto. destruct (column y (side_column cfg)); auto. exfalso. now apply Hm. }
    fold (row_vols daily_vol cfg y close).
    assert (exists vol, row_vols daily_vol cfg y close = Ok vol) as [vol ->].
    { unfold row_vols. destruct (volatility_adjusted cfg); eauto. destruct (Hv eq_refl) as [v ->]. cbn. eauto. }
    cbn [bind]. assert (String.eqb (side_column cfg) SIDE = false) as -> by (apply String.eqb_neq; exact Hs). unfold SIDE.
    destruct (column y "side"%string); [destruct (column y (side_column cfg))|]; cbn [bind]; unfold triple_barrier_labeling; reflexivity.
  Qed.
End T.
