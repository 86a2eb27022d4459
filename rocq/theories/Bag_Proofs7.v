(** Out-of-bag scoring with estimators that know fewer classes than the ensemble. *)
From Verif Require Import PreludeFacts QSum QSumFacts Num Boot_Model Boot_Spec Boot_Proofs Bag_Model Bag_Spec Bag_Spec2 Bag_Proofs Bag_Proofs2 Bag_Proofs3 Bag_Proofs4 Bag_Proofs5 Bag_Proofs6.
From Coq Require Import Lqa.
Open Scope nat_scope.

Section Proofs.
  Context {num gen est0 model : Type}.
  Variables (np : numpy gen) (est : estimator num gen est0 model).
  Notation trained := (trained model).
  Notation fit := (fit num gen est0 model np est).

  Definition stretch (nc : nat) (v : list Q) : list Q := if length v =? nc then v else repeat (nth 0 v 0%Q) nc.
  Lemma stretch_length nc v : length (stretch nc v) = nc.
  Proof. unfold stretch. destruct (Nat.eqb_spec (length v) nc); [assumption|apply repeat_length]. Qed.

  Lemma add_row_stretch nc row v row' : length row = nc -> add_row row v = Ok row' -> plus_row nc row (stretch nc v) row' /\ all_or_one nc v.
  Proof.
    intros Hr H. destruct (Nat.eqb_spec (length v) nc) as [E|E].
    - split; [|now left]. unfold stretch. rewrite (proj2 (Nat.eqb_eq _ _) E). now apply add_row_spec.
    - unfold add_row in H. rewrite Hr in H. destruct (Nat.eqb_spec (length v) nc) as [|_]; [contradiction|]. destruct v as [|x [|]]; try discriminate. injection H as <-.
      split; [|now right]. split; [now rewrite map_length|]. intros c. unfold stretch. destruct (Nat.eqb_spec (length [x]) nc) as [|_]; [contradiction|]. cbn [nth].
      destruct (Nat.lt_ge_cases c nc) as [Hc|Hc].
      + rewrite (nth_indep _ 0%Q (0 + x)%Q) by (rewrite map_length; lia). rewrite (map_nth (fun r => (r + x)%Q)). rewrite (nth_indep (repeat x nc) 0%Q x) by (rewrite repeat_length; lia). rewrite nth_repeat. reflexivity.
      + rewrite !nth_overflow by (rewrite ?map_length, ?repeat_length; lia). lra.
  Qed.
  Lemma add_row_total nc row v : length row = nc -> all_or_one nc v -> exists row', add_row row v = Ok row' /\ length row' = nc.
  Proof.
    intros Hr Hv. unfold add_row. rewrite Hr. destruct (Nat.eqb_spec (length v) nc) as [E|E]; [eexists; split; [reflexivity|rewrite map_length, combine_length; lia]|].
    destruct Hv as [|Hv]; [contradiction|]. destruct v as [|x [|]]; try discriminate. eexists. split; [reflexivity|now rewrite map_length].
  Qed.
  Lemma add_row_bad nc row v : length row = nc -> ~ all_or_one nc v -> add_row row v = Err ValueError.
  Proof.
    intros Hr Hv. unfold add_row. rewrite Hr. destruct (Nat.eqb_spec (length v) nc) as [E|E]; [destruct Hv; now left|].
    destruct v as [|x [|]]; try reflexivity. destruct Hv. now right.
  Qed.
  Lemma all_or_one_dec nc v : {all_or_one nc v} + {~ all_or_one nc v}.
  Proof. unfold all_or_one. destruct (Nat.eq_dec (length v) nc), (Nat.eq_dec (length v) 1); tauto. Qed.

  Lemma masked_stretch nc (val : list num -> list Q) features :
    forall X mask P Xf P', length mask = length X -> length P = length X -> Forall (fun r => length r = nc) P ->
    take_columns num (mask_sel X mask) features = Ok Xf -> add_masked P mask (map val Xf) = Ok P' ->
    length P' = length X /\ Forall (fun r => length r = nc) P' /\
    forall i x b row, nth_error X i = Some x -> nth_error mask i = Some b -> nth_error P i = Some row ->
      exists row', nth_error P' i = Some row' /\ if b then exists x', at_positions x features x' /\ plus_row nc row (stretch nc (val x')) row' /\ all_or_one nc (val x') else row' = row.
  Proof.
    induction X as [|x X IH]; intros [|b mask] [|row P] Xf P'; cbn [length]; try discriminate; intros Hm HP HF Hc Ha.
    - cbn in Hc. injection Hc as <-. cbn in Ha. injection Ha as <-. split; [reflexivity|]. split; [constructor|]. intros [|i]; discriminate.
    - injection Hm as Hm. injection HP as HP. inversion HF as [|? ? Hrow HF']; subst. destruct b; cbn [mask_sel] in Hc.
      + unfold take_columns in Hc. cbn [mapM] in Hc. destruct (mapM (get x) features) as [x'|] eqn:Ex; [|discriminate]. cbn [bind] in Hc.
        destruct (mapM _ (mask_sel X mask)) as [Xf'|] eqn:EX; [|discriminate]. cbn [bind] in Hc. injection Hc as <-. cbn [map add_masked] in Ha.
        destruct (add_row row (val x')) as [row'|] eqn:Er; [|discriminate]. cbn [bind] in Ha. destruct (add_masked P mask (map val Xf')) as [P''|] eqn:EP; [|discriminate].
        cbn [bind] in Ha. injection Ha as <-. destruct (IH mask P Xf' P'' Hm HP HF' EX EP) as (Hl & HF'' & Hn).
        destruct (add_row_stretch _ row (val x') row' eq_refl Er) as (Hpl & Hw).
        split; [cbn; now rewrite Hl|]. split; [constructor; [exact (proj1 Hpl)|exact HF'']|]. intros [|i] z b w; cbn [nth_error].
        * intros [= <-] [= <-] [= <-]. exists row'. split; [reflexivity|]. exists x'. split; [now apply take_rows_spec|]. split; [exact Hpl|exact Hw].
        * apply Hn.
      + cbn [add_masked] in Ha. destruct (add_masked P mask (map val Xf)) as [P''|] eqn:EP; [|discriminate]. cbn [bind] in Ha. injection Ha as <-.
        destruct (IH mask P Xf P'' Hm HP HF' Hc EP) as (Hl & HF'' & Hn). split; [cbn; now rewrite Hl|]. split; [now constructor|]. intros [|i] z b w; cbn [nth_error].
        * intros [= <-] [= <-] [= <-]. exists row. now split.
        * apply Hn.
  Qed.

  (** It either adds all rows, or one of them has the wrong width, and then it is a ValueError. *)
  Lemma masked_result nc (val : list num -> list Q) features :
    forall X mask P Xf, length mask = length X -> length P = length X -> Forall (fun r => length r = nc) P -> take_columns num (mask_sel X mask) features = Ok Xf ->
    (exists P', add_masked P mask (map val Xf) = Ok P') \/
    (add_masked P mask (map val Xf) = Err ValueError /\ exists i x x', nth_error X i = Some x /\ nth_error mask i = Some true /\ at_positions x features x' /\ ~ all_or_one nc (val x')).
  Proof.
    induction X as [|x X IH]; intros [|b mask] [|row P] Xf; cbn [length]; try discriminate; intros Hm HP HF Hc.
    - cbn in Hc. injection Hc as <-. cbn. left. eauto.
    - injection Hm as Hm. injection HP as HP. inversion HF as [|? ? Hrow HF']; subst. destruct b; cbn [mask_sel] in Hc.
      + unfold take_columns in Hc. cbn [mapM] in Hc. destruct (mapM (get x) features) as [x'|] eqn:Ex; [|discriminate]. cbn [bind] in Hc.
        destruct (mapM _ (mask_sel X mask)) as [Xf'|] eqn:EX; [|discriminate]. cbn [bind] in Hc. injection Hc as <-. cbn [map add_masked].
        destruct (all_or_one_dec (length row) (val x')) as [Hw|Hw].
        * destruct (add_row_total _ row (val x') eq_refl Hw) as (row' & -> & _). cbn [bind].
          destruct (IH mask P Xf' Hm HP HF' EX) as [(P' & ->)|(-> & i & z & z' & H1 & H2 & H3 & H4)]; cbn [bind]; [left; eauto|right]. split; [reflexivity|]. exists (S i), z, z'. auto.
        * rewrite (add_row_bad _ row (val x') eq_refl Hw). right. split; [reflexivity|]. exists 0, x, x'. repeat (split; [reflexivity|]). split; [now apply take_rows_spec|exact Hw].
      + cbn [add_masked]. destruct (IH mask P Xf Hm HP HF' Hc) as [(P' & ->)|(-> & i & z & z' & H1 & H2 & H3 & H4)]; cbn [bind]; [left; eauto|right]. split; [reflexivity|]. exists (S i), z, z'. auto.
  Qed.

  Lemma mask_at t n i : i < n -> nth_error (oob_mask (t_samples model t) n) i = Some (negb (existsb (Nat.eqb i) (t_samples _ t))).
  Proof.
    intros Hi. unfold oob_mask. rewrite nth_error_map. assert (Es : nth_error (seq 0 n) i = Some i) by (apply nth_error_seq; lia). rewrite Es. reflexivity.
  Qed.
  Lemma existsb_In i l : existsb (Nat.eqb i) l = true <-> In i l.
  Proof. rewrite existsb_exists. split; [intros (z & Hz & E); apply Nat.eqb_eq in E; now subst|]. intros H. exists i. split; [exact H|apply Nat.eqb_refl]. Qed.

  Section Proba.
    Variables (proba : model -> list (list num) -> result (list (list Q))) (f : model -> list num -> list Q).
    Hypothesis Hp : predict_proba num gen est0 model est = Some proba.
    Hypothesis Hrw : by_rows proba f.

    Lemma round_stretch nc X P t P' : length P = length X -> Forall (fun r => length r = nc) P -> oob_round _ _ _ _ est X nc P t = Ok P' ->
      length P' = length X /\ Forall (fun r => length r = nc) P' /\
      forall i x row, nth_error X i = Some x -> nth_error P i = Some row ->
        exists row', nth_error P' i = Some row' /\
          if existsb (Nat.eqb i) (t_samples _ t) then row' = row
          else exists x', at_positions x (t_features _ t) x' /\ plus_row nc row (stretch nc (f (t_model _ t) x')) row' /\ all_or_one nc (f (t_model _ t) x').
    Proof.
      intros HP HF. unfold oob_round. cbv zeta. set (mask := oob_mask (t_samples _ t) (length X)).
      assert (Hm : length mask = length X) by (unfold mask, oob_mask; now rewrite map_length, seq_length).
      unfold mask_select. rewrite Hm, Nat.eqb_refl. cbn [bind]. destruct (take_columns _ _ _) as [Xf|] eqn:Ec; cbn [bind]; [|discriminate]. rewrite Hp. intros E.
      assert (Ea : add_masked P mask (map (f (t_model _ t)) Xf) = Ok P').
      { destruct Xf as [|x0 Xf].
        - pose proof (proj1 (columns_nil _ _ _ Ec) eq_refl) as Hnil. pose proof (mask_empty _ _ Hm Hnil) as Hno.
          destruct (proba _ _) as [values|]; [|discriminate]. cbn [bind] in E. pose proof (add_masked_none _ _ _ _ Hno E) as ->. exact E.
        - rewrite Hrw in E by discriminate. exact E. }
      destruct (masked_stretch nc (f (t_model _ t)) (t_features _ t) X mask P Xf P' Hm HP HF Ec Ea) as (H1 & H2 & H3). split; [exact H1|]. split; [exact H2|].
      intros i x row Hx Hrow. assert (Hi : i < length X) by (apply nth_error_Some; congruence).
      destruct (H3 i x _ row Hx (mask_at t (length X) i Hi) Hrow) as (row' & Hr' & Hif). exists row'. split; [exact Hr'|]. destruct (existsb _ _); exact Hif.
    Qed.
    Lemma rounds_stretch nc X ts : forall P P', length P = length X -> Forall (fun r => length r = nc) P -> foldM (oob_round _ _ _ _ est X nc) P ts = Ok P' ->
      length P' = length X /\ Forall (fun r => length r = nc) P' /\
      forall i x row, nth_error X i = Some x -> nth_error P i = Some row ->
        exists row' votes, nth_error P' i = Some row' /\ opinions f ts i x votes /\ Forall (all_or_one nc) votes /\
          forall c, (nth c row' 0 == nth c row 0 + qsum (map (fun v => nth c (stretch nc v) 0) votes))%Q.
    Proof.
      induction ts as [|t ts IH]; intros P P' HP HF; cbn [foldM].
      - intros [= <-]. split; [exact HP|]. split; [exact HF|]. intros i x row _ Hr. exists row, []. split; [exact Hr|]. split; [constructor|]. split; [constructor|]. intros c. cbn. lra.
      - destruct (oob_round _ _ _ _ est X nc P t) as [P1|] eqn:E1; cbn [bind]; [|discriminate]. intros E. destruct (round_stretch nc X P t P1 HP HF E1) as (H1 & H2 & H3).
        destruct (IH P1 P' H1 H2 E) as (H4 & H5 & H6). split; [exact H4|]. split; [exact H5|]. intros i x row Hx Hrow. destruct (H3 i x row Hx Hrow) as (r1 & Hr1 & Hif).
        destruct (H6 i x r1 Hx Hr1) as (r2 & votes & Hr2 & Hop & Hw & Hsum). unfold opinions, unseen in *. cbn [filter]. destruct (existsb _ (t_samples _ t)); cbn [negb].
        + subst r1. exists r2, votes. auto.
        + destruct Hif as (x' & Hx' & (_ & Hpl) & Hw'). exists r2, (f (t_model _ t) x' :: votes). split; [exact Hr2|]. split; [constructor; [now exists x'|exact Hop]|]. split; [now constructor|].
          intros c. cbn [map qsum fold_right]. fold (qsum (map (fun v => nth c (stretch nc v) 0%Q) votes)). rewrite Hsum, Hpl. lra.
    Qed.

    Lemma stretch_column nc c l : c < nc -> Forall (all_or_one nc) l -> (forall v, In v l -> qsum v == 1)%Q ->
      (qsum (map (fun v => nth c (stretch nc v) 0) l) == qsum (map (fun v => nth c v 0) (filter (fun v => length v =? nc) l)) + Qn (length (filter (fun v => negb (length v =? nc)) l)))%Q.
    Proof.
      intros Hc Hw H1. induction Hw as [|v l Hv _ IH]; [cbn [map filter length]; change (qsum []) with 0%Q; change (Qn 0) with 0%Q; ring|]. cbn [map filter]. rewrite qsum_cons, IH by (intros; apply H1; now right). unfold stretch at 1.
      destruct (Nat.eqb_spec (length v) nc) as [E|E]; cbn [negb map length].
      - rewrite qsum_cons. lra.
      - destruct Hv as [Hv|Hv]; [contradiction|]. destruct v as [|x [|]]; try discriminate. pose proof (H1 [x] (or_introl eq_refl)) as Hx. rewrite qsum_cons in Hx. change (qsum []) with 0%Q in Hx.
        rewrite (nth_indep _ 0%Q x) by (rewrite repeat_length; lia). cbn [nth]. rewrite nth_repeat, Qn_S. lra.
    Qed.
    Lemma stretch_total nc l : Forall (all_or_one nc) l -> (forall v, In v l -> qsum v == 1)%Q ->
      (qsum (map (fun v => qsum (stretch nc v)) l) == Qn (length (filter (fun v => length v =? nc)%nat l)) + Qn nc * Qn (length (filter (fun v => negb (length v =? nc)%nat) l)))%Q.
    Proof.
      intros Hw H1. induction Hw as [|v l Hv _ IH]; [cbn [map filter length]; change (qsum []) with 0%Q; change (Qn 0) with 0%Q; ring|]. cbn [map filter]. rewrite qsum_cons, IH by (intros; apply H1; now right). unfold stretch at 1.
      pose proof (H1 v (or_introl eq_refl)) as Hx. destruct (Nat.eqb_spec (length v) nc) as [E|E]; cbn [negb length]; rewrite Qn_S.
      - lra.
      - destruct Hv as [Hv|Hv]; [contradiction|]. destruct v as [|x [|]]; try discriminate. rewrite qsum_cons in Hx. change (qsum []) with 0%Q in Hx. cbn [nth].
        assert (Er : (qsum (repeat x nc) == Qn nc * x)%Q). { clear. induction nc as [|nc IH]; [change (Qn 0) with 0%Q; cbn [repeat]; change (qsum []) with 0%Q; ring|]. cbn [repeat]. rewrite qsum_cons, IH, Qn_S. lra. }
        rewrite Er. assert (x == 1)%Q as -> by lra. lra.
    Qed.
    Lemma pooled_row nc row votes : 0 < nc -> length row = nc -> Forall (all_or_one nc) votes -> (forall v, In v votes -> qsum v == 1)%Q ->
      (forall c, nth c row 0 == qsum (map (fun v => nth c (stretch nc v) 0) votes))%Q -> pooled nc votes (map (fun x => ediv (Fin x) (Fin (qsum row))) row).
    Proof.
      intros Hnc Hl Hw H1 Hs. assert (Ht : (qsum row == Qn (length (filter (fun v => length v =? nc)%nat votes)) + Qn nc * Qn (length (filter (fun v => negb (length v =? nc)%nat) votes)))%Q).
      { rewrite <- (stretch_total nc votes Hw H1), qsum_nth, Hl. rewrite (qsum_map_ext _ (fun c => qsum (map (fun v => nth c (stretch nc v) 0%Q) votes))) by (intros; apply Hs).
        rewrite qsum_swap. apply qsum_map_ext. intros v _. rewrite (qsum_nth (stretch nc v)), stretch_length. reflexivity. }
      split; [now rewrite map_length|]. intros c Hc.
      assert (Hn : nth_error row c = Some (nth c row 0%Q)) by (apply nth_error_nth'; lia). rewrite nth_error_map, Hn. cbn [option_map].
      destruct votes as [|v votes].
      - f_equal. apply ediv_zero; [now rewrite Hs|]. rewrite Ht. cbn [filter length]. change (Qn 0) with 0%Q. ring.
      - set (L := v :: votes) in *. rewrite ediv_fin.
        + eexists. split; [reflexivity|]. rewrite Ht, Hs, (stretch_column nc c L Hc Hw H1). reflexivity.
        + rewrite Ht. pose proof (Qn_nonneg (length (filter (fun v => length v =? nc)%nat L))) as G1. pose proof (Qn_nonneg (length (filter (fun v => negb (length v =? nc)%nat) L))) as G2.
          pose proof (Qn_pos nc Hnc) as G3. assert (G4 : (0 < Qn (length (filter (fun v => length v =? nc)%nat L)) \/ 0 < Qn (length (filter (fun v => negb (length v =? nc)%nat) L)))%Q).
          { unfold L. cbn [filter]. destruct (length v =? nc); [left|right]; cbn [negb length]; apply Qn_pos; lia. }
          destruct G4; nra.
    Qed.

    Lemma c51_fewer p jobs sched (d : data num) (self : attributes model) h h' a : 0 < jobs -> fit p jobs sched d self h = Ok (h', a) -> oob_score p = true ->
      (forall m x, qsum (f m x) == 1)%Q ->
      exists ts decision score, ensemble _ a = Some ts /\ oob _ a = Some (decision, score) /\ length decision = length (d_rows _ d) /\
        forall i x, nth_error (d_rows _ d) i = Some x -> exists row l, nth_error decision i = Some row /\ opinions f ts i x l /\ Forall (all_or_one (n_classes _ a)) l /\ pooled (n_classes _ a) l row.
    Proof.
      intros Hj E Ho Hone. destruct (fit_oob _ _ _ _ _ _ _ _ _ _ Hj E Ho) as (ts & y & decision & score & Hts & Hoob & _ & Hly & _ & Hnc & Es).
      exists ts, decision, score. split; [exact Hts|]. split; [exact Hoob|]. set (nc := n_classes _ a) in *.
      unfold set_oob_score in Es. cbv zeta in Es. destruct (foldM _ _ ts) as [P|] eqn:EP; cbn [bind] in Es; [|discriminate]. injection Es as <- _.
      destruct (rounds_stretch nc (d_rows _ d) ts (repeat (repeat 0%Q nc) (length y)) P) as (H1 & H2 & H3); [now rewrite repeat_length| |exact EP|].
      { apply Forall_forall. intros r Hr. apply repeat_spec in Hr as ->. apply repeat_length. }
      split; [now rewrite map_length|]. intros i x Hx. assert (Hi : i < length (d_rows _ d)) by (apply nth_error_Some; congruence).
      assert (Hz : nth_error (repeat (repeat 0%Q nc) (length y)) i = Some (repeat 0%Q nc)) by (apply nth_error_repeat; lia).
      destruct (H3 i x _ Hx Hz) as (row & votes & Hr & Hop & Hw & Hs). exists (map (fun z => ediv (Fin z) (Fin (qsum row))) row), votes.
      split; [rewrite nth_error_map, Hr; reflexivity|]. split; [exact Hop|]. split; [exact Hw|]. apply pooled_row; auto.
      - rewrite Forall_forall in H2. apply H2. eapply nth_error_In; eauto.
      - intros v Hv. destruct (opinions_In _ _ _ _ _ _ Hop Hv) as (m & x' & ->). apply Hone.
      - intros c. rewrite Hs, nth_repeat. lra.
    Qed.

    (** ** When it proceeds *)
    Lemma round_result nc X P t w : (forall m, proba m [] = Err ValueError) -> length P = length X -> Forall (fun r => length r = nc) P ->
      Forall (fun row => length row = w) X -> Forall (fun i => i < w) (t_features _ t) ->
      (scorable f nc X t -> exists P', oob_round _ _ _ _ est X nc P t = Ok P' /\ length P' = length X /\ Forall (fun r => length r = nc) P') /\
      (~ scorable f nc X t -> oob_round _ _ _ _ est X nc P t = Err ValueError) /\ (scorable f nc X t \/ ~ scorable f nc X t).
    Proof.
      intros Hemp HP HF HX Hf. destruct (leaves_dec (length X) t) as [Hl|Ha].
      2:{ assert (Hn : ~ scorable f nc X t) by (intros ((i & Hi & Ho) & _); destruct (Ho (Ha i Hi))). split; [tauto|]. split; [|tauto]. intros _.
          apply (round_fails est nc X P t w); [unfold rejects_empty; now rewrite Hp|exact Hf|exact Ha]. }
      set (mask := oob_mask (t_samples _ t) (length X)). assert (Hm : length mask = length X) by (unfold mask, oob_mask; now rewrite map_length, seq_length).
      destruct (columns_total (mask_sel X mask) (t_features _ t) w (mask_sel_forall _ _ _ HX) Hf) as [Xf Ec].
      assert (Hne : Xf <> []).
      { intros ->. apply columns_nil in Ec. destruct Ec as [Ec _]. specialize (Ec eq_refl). destruct Hl as (i & Hi & Hout).
        assert (Hb : In true mask).
        { eapply nth_error_In. unfold mask. rewrite mask_at by exact Hi. f_equal. apply Bool.negb_true_iff, Bool.not_true_iff_false. now rewrite existsb_In. }
        pose proof (mask_empty _ _ Hm Ec true Hb). discriminate. }
      assert (Eo : oob_round _ _ _ _ est X nc P t = add_masked P mask (map (f (t_model _ t)) Xf)).
      { unfold oob_round. cbv zeta. fold mask. unfold mask_select. rewrite Hm, Nat.eqb_refl. cbn [bind]. rewrite Ec. cbn [bind]. rewrite Hp, Hrw by exact Hne. reflexivity. }
      destruct (masked_result nc (f (t_model _ t)) (t_features _ t) X mask P Xf Hm HP HF Ec) as [(P' & E)|(E & i & x & x' & Hx & Hb & Hat & Hbad)].
      - assert (Hs : scorable f nc X t).
        { split; [exact Hl|]. intros i x x' Hx Hout Hat. assert (Hi : i < length X) by (apply nth_error_Some; congruence). rewrite <- HP in Hi. apply nth_error_Some in Hi.
          destruct (nth_error P i) as [row|] eqn:Er; [|contradiction]. rewrite <- Eo in E. destruct (round_stretch nc X P t P' HP HF E) as (_ & _ & H3). destruct (H3 i x row Hx Er) as (row' & _ & Hif).
          replace (existsb (Nat.eqb i) (t_samples _ t)) with false in Hif by (symmetry; apply Bool.not_true_iff_false; now rewrite existsb_In).
          destruct Hif as (x2 & Hat2 & _ & Hw). replace x' with x2; [exact Hw|]. clear - Hat Hat2. unfold at_positions in *. revert x' Hat. induction Hat2 as [|a b l1 l2 H _ IH]; intros x' Hat; inversion Hat as [|? b' ? l2' H' Hat']; subst; [reflexivity|]. f_equal; [congruence|auto]. }
        split; [|tauto]. intros _. rewrite <- Eo in E. destruct (round_stretch nc X P t P' HP HF E) as (H1 & H2 & _). eauto.
      - assert (Hn : ~ scorable f nc X t).
        { intros (_ & Hs). apply Hbad, (Hs i x x' Hx); [|exact Hat]. intros Hin. assert (Hi : i < length X) by (apply nth_error_Some; congruence). unfold mask in Hb. rewrite mask_at in Hb by exact Hi.
          rewrite (proj2 (existsb_In i (t_samples _ t)) Hin) in Hb. discriminate. }
        rewrite Eo, E. tauto.
    Qed.
    Lemma rounds_result nc X w ts : (forall m, proba m [] = Err ValueError) -> Forall (fun row => length row = w) X -> (forall t, In t ts -> Forall (fun i => i < w) (t_features _ t)) ->
      forall P, length P = length X -> Forall (fun r => length r = nc) P ->
      (Forall (scorable f nc X) ts /\ exists P', foldM (oob_round _ _ _ _ est X nc) P ts = Ok P') \/
      (~ Forall (scorable f nc X) ts /\ foldM (oob_round _ _ _ _ est X nc) P ts = Err ValueError).
    Proof.
      intros Hemp HX. induction ts as [|t ts IH]; intros Hf P HP HF; cbn [foldM]; [left; split; [constructor|eauto]|].
      destruct (round_result nc X P t w Hemp HP HF HX (Hf t (or_introl eq_refl))) as (H1 & H2 & [H3|H3]).
      - destruct (H1 H3) as (P1 & -> & HP1 & HF1). cbn [bind]. destruct (IH (fun t' H => Hf t' (or_intror H)) P1 HP1 HF1) as [(G1 & G2)|(G1 & G2)]; [left|right]; (split; [|exact G2]).
        + now constructor.
        + intros C. inversion C. contradiction.
      - right. rewrite (H2 H3). split; [|reflexivity]. intros C. inversion C. contradiction.
    Qed.

    Lemma c52_oob_classes p jobs sched (d : data num) (self : attributes model) h samples m idx : 0 < jobs -> libraries_fine np est -> samples_info_sets p = complete samples ->
      get_ind_matrix (complete samples) (price_bars p) = Ok (m, idx) -> NoDup (map fst samples) -> (0 < update_probs_every p)%Z ->
      length (d_index _ d) = length (d_rows _ d) -> Forall (fun row => length row = d_width _ d) (d_rows _ d) ->
      (d_weight _ d <> None -> support_sample_weight _ _ _ _ est = true) -> oob_score p = true -> acceptable p d self h -> (forall m, proba m [] = Err ValueError) ->
      exists h1 a1 ts, fit (with_oob p false) jobs sched d self h = Ok (h1, a1) /\ ensemble _ a1 = Some ts /\
        (Forall (scorable f (n_classes _ a1) (d_rows _ d)) ts -> exists h' a, fit p jobs sched d self h = Ok (h', a) /\ ensemble _ a = Some ts /\ n_classes _ a = n_classes _ a1) /\
        (~ Forall (scorable f (n_classes _ a1) (d_rows _ d)) ts -> fit p jobs sched d self h = Err ValueError).
    Proof.
      intros Hj Hlib Hsam Em Hnd Hu Hidx Hrows Hsup Hoob Hacc Hemp.
      assert (Hwarm : warm_start p = false).
      { destruct Hacc as (_ & _ & Hno & _). destruct (warm_start p); [destruct Hno; auto|reflexivity]. }
      assert (Hacc' : acceptable (with_oob p false) d self h).
      { destruct Hacc as (H1 & H2 & H3 & H4). split; [exact H1|]. split; [exact H2|]. split; [cbn; intros [_ C]; discriminate|exact H4]. }
      destruct (c52_proceeds np est (with_oob p false) jobs sched d self h samples m idx Hj Hlib Hsam Em Hnd Hu Hidx Hrows Hsup eq_refl Hacc') as (h1 & a1 & E1).
      pose proof (fit_visible np est (with_oob p false) jobs sched d self h Hj) as V1. rewrite E1 in V1. cbn [visible] in V1. symmetry in V1.
      pose proof (fit_visible np est p jobs sched d self h Hj) as V2.
      assert (Ep : prepare p d self h = prepare (with_oob p false) d self h).
      { unfold prepare. cbn [with_oob samples_info_sets price_bars n_estimators max_samples max_features bootstrap_features oob_score warm_start random_state update_probs_every].
        rewrite Hwarm. reflexivity. }
      unfold pure_fit in V1, V2. rewrite Ep in V2.
      destruct (prepare (with_oob p false) d self h) as [[[[j nc] old] k]|e] eqn:Epr; [|discriminate]. cbn [bind] in V1, V2.
      destruct (prepare_inv _ _ _ _ _ _ _ _ Epr) as (m' & idx' & classes & y & ms & mf & Em' & Hcov & Hn & Hwd & Hlab & Hwt & Hy & Hne & Hms & Hmf & Hwo & Hold & Hk0 & Hk & Hnc & Hjob).
      cbn [with_oob warm_start] in Hold. rewrite Hwarm in Hold. subst old.
      assert (Hk1 : Nat.eqb k 0 = false) by (apply Nat.eqb_neq; cbn in Hk, Hne; lia). rewrite Hk1 in V1, V2.
      change (seeds_from np (with_oob p false) (length (@nil trained)) k) with (seeds_from np p (length (@nil trained)) k) in V1.
      destruct (do _ <- allowed est j ;; _) as [new|e] eqn:Enew; [|discriminate]. cbn [bind app] in V1, V2.
      change (oob_score (with_oob p false)) with false in V1. cbn [bind] in V1. injection V1 as <-.
      exists h1. eexists. exists new. split; [exact E1|]. split; [reflexivity|]. cbn [n_classes].
      assert (Hfeat : forall t, In t new -> Forall (fun i => i < d_width _ d) (t_features _ t)).
      { intros t Ht. destruct (allowed est j) as [u|]; [|discriminate]. cbn [bind] in Enew.
        destruct (mapM_In _ _ _ _ Enew Ht) as (s & _ & Et). apply train_comes in Et.
        2:{ rewrite Hjob. cbn [j_X]. unfold given_weights. destruct (d_weight _ d) as [a0|]; [|apply repeat_length]. destruct (Hwt a0 eq_refl) as (w & -> & Hw). exact Hw. }
        destruct Et as (e & g & features & g' & samples' & lg & _ & Ef & _ & <- & _). rewrite Hjob in Ef. cbn [j_n_features j_max_features j_bootstrap_features] in Ef.
        destruct Hlib as (_ & _ & _ & Hri & Hsw).
        apply (proj1 (check_features_spec _ _ _ Hwd)) in Hmf. apply feature_size_bounds in Hmf.
        destruct (bootstrap_features _); [specialize (Hri g (d_width _ d) mf Hwd); now rewrite Ef in Hri|specialize (Hsw g (d_width _ d) mf ltac:(lia)); now rewrite Ef in Hsw]. }
      assert (Hly : length (j_y _ j) = length (d_rows _ d)).
      { rewrite Hjob. cbn [j_y]. destruct (validate_codes _ _ _ Hy) as (_ & Hl & _). congruence. }
      assert (Hz : length (repeat (repeat 0%Q nc) (length (j_y _ j))) = length (d_rows _ d)) by (rewrite repeat_length; exact Hly).
      assert (HF : Forall (fun r => length r = nc) (repeat (repeat 0%Q nc) (length (j_y _ j)))).
      { apply Forall_forall. intros r Hr. apply repeat_spec in Hr. subst r. apply repeat_length. }
      rewrite Hoob in V2. unfold set_oob_score in V2.
      destruct (rounds_result nc (d_rows _ d) (d_width _ d) new Hemp Hrows Hfeat _ Hz HF) as [(Hall & P' & EP)|(Hall & EP)]; rewrite EP in V2; cbn [bind] in V2.
      - split; [|tauto]. intros _. destruct (fit p jobs sched d self h) as [[h' a]|e]; [|discriminate]. cbn [visible] in V2. injection V2 as ->. eexists _, _. split; [reflexivity|]. split; reflexivity.
      - split; [tauto|]. intros _. destruct (fit p jobs sched d self h) as [[h' a]|e]; [discriminate|]. cbn [visible] in V2. congruence.
    Qed.
  End Proba.
End Proofs.
