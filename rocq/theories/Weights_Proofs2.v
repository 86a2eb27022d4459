(** Proofs for the return-attribution sample weights. *)
From Coq Require Import QArith Reals Lra.
From Verif Require Import PreludeFacts Series QSum Boot_Spec Boot_Model Boot_Proofs Boot_Proofs2 Weights_Spec Weights_Model Cusum_Proofs.
Local Open Scope nat_scope.

Lemma mask_sel_zipw {A B C} (f : A -> B -> C) : forall (a : list A) (b : list B) m,
  length a = length m -> length b = length m ->
  zipw f (mask_sel a m) (mask_sel b m) = mask_sel (zipw f a b) m.
Proof.
  unfold zipw. induction a as [|x a IH]; intros [|y b] [|c m] H1 H2; cbn in *; try lia; auto.
  destruct c; cbn; [f_equal|]; apply IH; lia.
Qed.
Lemma mask_sel_map {A B} (f : A -> B) : forall (a : list A) m, map f (mask_sel a m) = mask_sel (map f a) m.
Proof. induction a as [|x a IH]; intros [|[] m]; cbn; auto. now rewrite IH. Qed.
Lemma mask_sel_filter {A B} (p : B -> bool) (bars : list B) : forall (l : list A) s (f : nat -> A), 
  l = map f (seq s (length bars)) ->
  mask_sel l (map p bars) =
  map f (filter (fun k => match nth_error bars (k - s) with Some b => p b | None => false end) (seq s (length bars))).
Proof.
  induction bars as [|b bars IH]; intros l s f ->; cbn; auto. rewrite Nat.sub_diag. cbn.
  assert (E : filter (fun k => match nth_error (b :: bars) (k - s) with Some b0 => p b0 | None => false end) (seq (S s) (length bars)) =
          filter (fun k => match nth_error bars (k - S s) with Some b0 => p b0 | None => false end) (seq (S s) (length bars))).
  { apply filter_ext_in. intros k Hk. apply in_seq in Hk. now replace (k - s) with (S (k - S s)) by lia. }
  rewrite E. destruct (p b); cbn; rewrite (IH _ (S s) f eq_refl); reflexivity.
Qed.

Lemma esum_fin_from (l : list R) : forall a, fold_left eadd (map (@Fin R) l) (Fin a) = Fin (a + rsum l)%R.
Proof.
  induction l as [|x l IH]; intros a; cbn; [f_equal; lra|]. rewrite IH. f_equal. unfold rsum. lra.
Qed.
Lemma esum_fin (l : list R) : esum (map (@Fin R) l) = Fin (rsum l).
Proof. unfold esum. rewrite esum_fin_from. f_equal. change (@a0 R _) with 0%R. lra. Qed.

Lemma eabs_fin x : eabs (Fin x) = Fin (Rabs x).
Proof.
  cbn. destruct (Rlt_dec x 0); f_equal; [rewrite Rabs_left by auto; reflexivity|].
  rewrite Rabs_right; auto; lra.
Qed.

Lemma nth_error_zipw {A B C} (f : A -> B -> C) (a : list A) (b : list B) k x y :
  nth_error a k = Some x -> nth_error b k = Some y -> nth_error (zipw f a b) k = Some (f x y).
Proof.
  intros H1 H2. unfold zipw. rewrite nth_error_map. now rewrite (nth_error_combine a b k x y H1 H2).
Qed.

Lemma list_eq_nth {A} (l m : list A) : length l = length m ->
  (forall k x y, nth_error l k = Some x -> nth_error m k = Some y -> x = y) -> l = m.
Proof.
  revert m. induction l as [|a l IH]; intros [|b m] HL H; cbn in HL; try lia; auto.
  f_equal; [apply (H 0); auto|]. apply IH; [lia|]. intros k x y H1 H2. apply (H (S k)); auto.
Qed.

Lemma diff_nth {A} `{Arith A} (l : list (ext A)) k x : nth_error l k = Some x ->
  nth_error (diff l) k = Some (match k with O => NaN | S j => match nth_error l j with Some y => esub x y | None => NaN end end).
Proof.
  intros Hx. unfold diff, shift1.
  assert (exists y, nth_error (firstn (length l) (NaN :: l)) k = Some y /\
     y = match k with O => NaN | S j => match nth_error l j with Some z => z | None => NaN end end) as (y & Hy & Ey).
  { assert (k < length l) by (apply nth_error_Some; congruence).
    assert (nth_error (firstn (length l) (NaN :: l)) k = nth_error (NaN :: l) k) as E.
    { transitivity (nth_error (firstn (length l) (NaN :: l) ++ skipn (length l) (NaN :: l)) k).
      - rewrite nth_error_app1; auto. rewrite firstn_length. cbn [length]. lia.
      - now rewrite firstn_skipn. }
    rewrite E. destruct k as [|j]; cbn; [eauto|].
    destruct (nth_error l j) as [z|] eqn:E2; [eauto|]. exfalso. apply nth_error_None in E2. lia. }
  erewrite nth_error_zipw; eauto. subst y. destruct k; [destruct x; auto|].
  destruct (nth_error l k); auto. destruct x; auto.
Qed.

Definition to_row (r : price_row) : wrow :=
  {| w_start := start_of r; w_end := Some (end_of r); w_close := of_opt (snd r) |}.

Lemma count_if (p : nat -> bool) (n s : nat) :
  esum (map (fun j => if p j then Fin 1%R else Fin 0%R) (seq s n)) = Fin (INR (count p (seq s n))).
Proof.
  assert (map (fun j => if p j then Fin 1%R else Fin 0%R) (seq s n) = map (@Fin R) (map (fun j => if p j then 1%R else 0%R) (seq s n))) as ->.
  { rewrite map_map. apply map_ext. intros j. now destruct (p j). }
  rewrite esum_fin. f_equal. unfold count. induction (seq s n) as [|x l IH]; auto. cbn [map rsum fold_right filter].
  unfold rsum in IH. rewrite IH. destruct (p x); cbn [length]; [rewrite S_INR; lra|lra].
Qed.

Lemma row_alive samples bars m idx t p : get_ind_matrix (complete samples) bars = Ok (m, idx) ->
  nth_error idx p = Some t -> row_sum m p = Fin (INR (count (alive t) samples)).
Proof.
  intros H Hp. destruct (c13 _ _ _ _ H) as (Hc & Hr & _ & _ & He).
  unfold row_sum, all_cols. rewrite count_if, Hc. f_equal. f_equal.
  apply count_seq_nth. intros j [s e] E.
  specialize (He p j t s e Hp E). unfold alive. cbn [fst snd].
  apply Bool.eq_true_iff_eq. rewrite He. rewrite andb_true_iff, !Z.leb_le. tauto.
Qed.

Lemma position_some_nth x l p : position x l = Some p -> nth_error l p = Some x.
Proof.
  revert p. induction l as [|y l IH]; intros p; cbn; [discriminate|].
  destruct (Z.eqb_spec x y); [intros [= <-]; now subst|]. destruct (position x l); [|discriminate].
  intros [= <-]. cbn. auto.
Qed.
Lemma position_in x l : In x l -> exists p, position x l = Some p.
Proof.
  induction l as [|y l IH]; [easy|]. cbn. destruct (Z.eqb_spec x y); [eauto|]. intros [->|H]; [congruence|].
  destruct (IH H) as [p ->]. cbn. eauto.
Qed.

Section Rows.
  Variable rows : list price_row.
  Hypothesis Hprice : forall r p, In r rows -> snd r = Some p -> (0 < p)%R.
  Hypothesis Horder : forall r, In r rows -> (start_of r <= end_of r)%Z.

  Lemma returns_nth k : k < length rows ->
    nth_error (diff (map (fun r => elog (w_close r)) (map to_row rows))) k = Some (of_opt (log_return rows k)).
  Proof.
    intros Hk. rewrite map_map. cbn [w_close to_row].
    destruct (nth_error rows k) as [r|] eqn:E; [|apply nth_error_None in E; lia].
    erewrite diff_nth by (rewrite nth_error_map, E; reflexivity).
    f_equal. destruct k as [|j]; auto. rewrite nth_error_map. unfold log_return. rewrite E.
    destruct (nth_error rows j) as [r0|] eqn:E0; [|apply nth_error_None in E0; lia]. cbn [option_map].
    pose proof (Hprice r) as H1. pose proof (Hprice r0) as H0.
    destruct r as [se [p1|]], r0 as [se0 [p0|]]; cbn [snd of_opt] in *.
    - specialize (H1 p1 (nth_error_In _ _ E) eq_refl). specialize (H0 p0 (nth_error_In _ _ E0) eq_refl).
      cbn. destruct (Rlt_dec 0 p1); [|lra]. destruct (Rlt_dec 0 p0); [|lra]. reflexivity.
    - destruct (elog (Fin p1)); reflexivity.
    - destruct (elog (Fin p0)); reflexivity.
    - reflexivity.
  Qed.

  Lemma c20 out : returns_transform (map to_row rows) = Ok out ->
    map fst out = map start_of rows /\
    forall i r, nth_error rows i = Some r ->
      nth_error out i = Some (start_of r, Fin (Rabs (rsum (map (contribution rows)
        (filter (fun k => match nth_error rows k with
                          | Some b => within_ms (start_of r) (end_of r) (start_of b)
                          | None => false end) (seq 0 (length rows))))))).
  Proof.
    intros H. unfold returns_transform in H.
    assert (E1 : map (fun r => (Some (w_start r), w_end r)) (map to_row rows) = complete (map fst rows)).
    { unfold complete. rewrite !map_map. reflexivity. }
    assert (E2 : map w_start (map to_row rows) = map start_of rows) by (rewrite map_map; reflexivity).
    rewrite E1, E2 in H.
    destruct (get_ind_matrix _ _) as [[m idx]|] eqn:EG; [|discriminate]. cbn [bind fst snd] in H.
    destruct (mapM _ _) as [conc|] eqn:EC; [|discriminate]. cbn [bind] in H.
    assert (E3 : flat_map (fun r => match w_end r with Some e => [e] | None => [] end) (map to_row rows) = map end_of rows).
    { clear. induction rows; cbn; auto. f_equal. auto. }
    rewrite E3 in H. 
    match type of H with Ok ?y = Ok _ => assert (out = y) as -> by congruence end. clear H.
    set (n := length rows) in *.
    set (rets := diff (map (fun r => elog (w_close r)) (map to_row rows))).
    assert (Lr : length rets = n) by (unfold rets, n; now rewrite diff_length, !map_length).
    assert (Lc : length conc = n) by (apply mapM_length in EC; rewrite EC, map_length; auto).
    (* concurrency *)
    assert (HC : forall k r, nth_error rows k = Some r ->
       nth_error conc k = Some (Fin (INR (labels_alive rows (start_of r))))).
    { intros k r Hk.
      assert (Hs : nth_error (map start_of rows) k = Some (start_of r)) by (rewrite nth_error_map, Hk; auto).
      destruct (mapM_nth _ _ _ _ _ EC Hs) as (c & Hc1 & Hc2).
      rewrite Hc1. f_equal. unfold concurrent_at in Hc2.
      destruct (position (start_of r) idx) as [p|] eqn:EP; [|discriminate]. injection Hc2 as <-.
      apply position_some_nth in EP. rewrite (row_alive _ _ _ _ _ _ EG EP). reflexivity. }
    assert (HV : map (fun x : ext R => if is_nan x then Fin 0%R else x) (zipw ediv rets conc) =
                 map Fin (map (contribution rows) (seq 0 n))).
    { assert (length (zipw ediv rets conc) = n) as Lz by (unfold zipw; rewrite map_length, combine_length; lia).
      apply list_eq_nth; [rewrite !map_length, seq_length; lia|].
      intros k x y Hx Hy. rewrite nth_error_map in Hx.
      assert (k < n) as Hk.
      { rewrite <- Lz. apply nth_error_Some. intros E. rewrite E in Hx. discriminate. }
      destruct (nth_error rows k) as [r|] eqn:Er; [|apply nth_error_None in Er; lia].
      erewrite nth_error_zipw in Hx; [|apply returns_nth; exact Hk|apply HC; exact Er].
      rewrite !nth_error_map in Hy. 
      assert (nth_error (seq 0 n) k = Some k) as Es by (apply nth_error_seq; auto).
      rewrite Es in Hy. cbn [option_map] in Hx, Hy. injection Hx as <-. injection Hy as <-.
      unfold contribution. rewrite Er. destruct (log_return rows k) as [q|]; [|reflexivity].
      cbn [of_opt ediv].
      assert (labels_alive rows (start_of r) <> 0) as Hnz.
      { unfold labels_alive, count. intros E. apply length_zero_iff_nil in E.
        assert (In (fst r) (filter (alive (start_of r)) (map fst rows))) as Hin.
        { apply filter_In. apply nth_error_In in Er. split; [now apply in_map|]. unfold alive.
          specialize (Horder r Er). unfold start_of, end_of in *. apply andb_true_iff. rewrite !Z.leb_le. lia. }
        rewrite E in Hin. easy. }
      cbn. destruct (Req_EM_T _ _) as [E|_]; [|reflexivity].
      exfalso. apply Hnz. apply INR_eq. rewrite E. reflexivity. }
    assert (LB : length (map to_ms (map start_of rows)) = n) by now rewrite !map_length.
    split.
    - apply map_fst_combine. unfold calculate_weights. rewrite !map_length, combine_length, !map_length. lia.
    - intros i r Hi.
      assert (Hs : nth_error (map start_of rows) i = Some (start_of r)) by (rewrite nth_error_map, Hi; auto).
      erewrite nth_error_combine; [reflexivity|exact Hs|].
      unfold calculate_weights. rewrite nth_error_map.
      erewrite (nth_error_combine _ _ i (to_ms (start_of r)) (to_ms (end_of r)));
        [|rewrite nth_error_map, Hs; reflexivity|rewrite !nth_error_map, Hi; reflexivity].
      cbn [option_map fst snd]. f_equal.
      rewrite mask_sel_zipw by (rewrite map_length; lia).
      unfold nansum. rewrite mask_sel_map. change (@a0 R _) with 0%R. rewrite HV, <- mask_sel_map, esum_fin, eabs_fin.
      f_equal. f_equal. f_equal.
      assert (LB' : n = length (map to_ms (map start_of rows))) by auto.
      rewrite (mask_sel_filter _ _ _ 0 (contribution rows)) by (now rewrite <- LB').
      rewrite <- LB'. f_equal. apply filter_ext. intros k. rewrite Nat.sub_0_r, !nth_error_map.
      destruct (nth_error rows k); reflexivity.
  Qed.
End Rows.

(** No weight is ever negative, whatever the prices. *)
Lemma eabs_nonneg (x : ext R) : eltb (eabs x) (Fin 0%R) = false.
Proof.
  destruct x as [a| | |]; auto. rewrite eabs_fin. cbn. destruct (Rlt_dec (Rabs a) 0); auto.
  pose proof (Rabs_pos a). lra.
Qed.
Lemma c20_nonneg X out t w : returns_transform X = Ok out -> In (t, w) out -> eltb w (Fin 0%R) = false.
Proof.
  unfold returns_transform. destruct (get_ind_matrix _ _) as [[m idx]|]; [|discriminate]. cbn [bind].
  destruct (mapM _ _) as [conc|]; [|discriminate]. cbn [bind fst snd]. intros [= <-] Hin.
  apply in_combine_r in Hin. unfold calculate_weights in Hin. apply in_map_iff in Hin as (se & <- & _).
  apply eabs_nonneg.
Qed.

Lemma complete_of samples : (forall s e, In (s, e) samples -> e <> None) ->
  exists l, map (fun r : Z * option Z => (Some (fst r), snd r)) samples = complete l /\ map fst l = map fst samples.
Proof.
  intros H. induction samples as [|[s [e|]] l IH].
  - now exists [].
  - destruct IH as (l' & E & F); [intros; eapply H; right; eauto|]. exists ((s, e) :: l'). cbn. rewrite E, F. auto.
  - exfalso. eapply H; [now left|auto].
Qed.

(** It succeeds exactly when the indicator matrix can be built. *)
Lemma c20_succeeds X :
  (exists out, returns_transform X = Ok out) <->
  (exists mi, get_ind_matrix (map (fun r => (Some (w_start r), w_end r)) X) (map w_start X) = Ok mi).
Proof.
  unfold returns_transform. destruct (get_ind_matrix _ _) as [[m idx]|] eqn:E; cbn [bind].
  - split; [eauto|]. intros _. cbn [fst snd].
    assert (exists l, map (fun r => (Some (w_start r), w_end r)) X = complete l /\ map fst l = map w_start X) as (l & El & Ef).
    { destruct (complete_of (map (fun r => (w_start r, w_end r)) X)) as (l & E1 & E2).
      - intros s e Hin ->. assert (get_ind_matrix (map (fun r => (Some (w_start r), w_end r)) X) (map w_start X) = Err ValueError) as HE; [|congruence].
        apply get_ind_matrix_missing. right. apply in_map_iff in Hin as (r & [= <- Hr] & Hin).
        exists (Some (w_start r)), (w_end r). split; [|right; auto]. apply in_map_iff. exists r. auto.
      - exists l. rewrite map_map in E1. cbn [fst snd] in E1. rewrite E1, E2, map_map. auto. }
    rewrite El in E. destruct (c13 _ _ _ _ E) as (_ & _ & _ & Hrow & _).
    destruct (mapM _ _) as [c|e] eqn:EM; cbn [bind]; [eauto|].
    exfalso. assert (forall t, In t (map w_start X) -> exists c, concurrent_at m idx t = Ok c) as HH.
    { intros t Ht. assert (In t idx) as Hin.
      { apply Hrow. left. rewrite <- Ef in Ht. apply in_map_iff in Ht as ([s e'] & <- & Hin). exists s, e'. auto. }
      destruct (position_in _ _ Hin) as [p Hp]. unfold concurrent_at. rewrite Hp. eauto. }
    clear - EM HH. revert e EM. induction (map w_start X) as [|t ts IH]; intros e EM; [discriminate|]. cbn in EM.
    destruct (HH t (or_introl eq_refl)) as [c Hc]. rewrite Hc in EM. cbn in EM.
    destruct (mapM _ ts) as [cs|e'] eqn:E'; cbn in EM; [discriminate|]. eapply IH; eauto. intros; apply HH. now right.
  - split; intros [? ?]; discriminate.
Qed.
