(** Labels, volatilities and weights of bars moved by a whole number of milliseconds; trends under any clock. *)
From Coq Require Import Reals String Lia.
From Verif Require Import PreludeFacts Series Boot_Model DailyVol_Model Weights_Model Label_Model Order_Spec Order_Spec2 Order_Proofs.
Local Open Scope nat_scope.

Lemma mask_sel_map' {A B} (g : A -> B) l m : mask_sel (map g l) m = map g (mask_sel l m).
Proof. revert m. induction l as [|x l IH]; intros [|b m]; cbn; auto. destruct b; cbn; now rewrite IH. Qed.
Lemma mask_sel_In {A} (x : A) l m : In x (mask_sel l m) -> In x l.
Proof. revert m. induction l as [|y l IH]; intros [|b m]; cbn; auto; try tauto. destruct b; cbn; [intros [->|H]; [now left|]|intros H]; right; eauto. Qed.
Lemma set_at_map {A B} (g : A -> B) l i v : set_at (map g l) i (g v) = map g (set_at l i v).
Proof. unfold set_at. rewrite firstn_map, skipn_map, map_app. destruct (skipn i l); reflexivity. Qed.
Lemma set_at_In {A} (x : A) l i v : In x (set_at l i v) -> x = v \/ In x l.
Proof.
  unfold set_at. intros H. apply in_app_or in H. destruct H as [H|H]; [right; rewrite <- (firstn_skipn i l); apply in_or_app; now left|].
  destruct (skipn i l) as [|y r] eqn:E; [destruct H|]. destruct H as [<-|H]; [now left|]. right. rewrite <- (firstn_skipn i l), E. apply in_or_app. right. now right.
Qed.
Lemma list_minZ_In d l : In (list_minZ d l) (d :: l).
Proof.
  unfold list_minZ. revert d. induction l as [|x l IH]; intros d; [now left|]. cbn. specialize (IH (Z.min d x)). cbn in IH.
  destruct IH as [E|E]; [|now right; right]. destruct (Z.min_spec d x) as [[_ M]|[_ M]]; rewrite M in *; [left|right; left]; exact E.
Qed.

Section Shift.
  Context {A : Type} `{HA : Arith A}.
  Variable k : Z.
  Notation move := (later k).
  Notation up := (fun m => (m + k)%Z).

  Lemma move_order : keeps_order move.
  Proof. unfold keeps_order, later. lia. Qed.
  Lemma up_order : keeps_order up.
  Proof. unfold keeps_order. lia. Qed.
  Lemma to_ms_move t : to_ms (move t) = (to_ms t + k)%Z.
  Proof. unfold to_ms, later. rewrite Z.div_add by lia. reflexivity. Qed.

  Lemma daily_returns_moved idx (close : list (ext A)) : daily_returns (map move idx) close = on_ok (map (retime_row move)) (daily_returns idx close).
  Proof.
    unfold daily_returns. cbv zeta. rewrite map_length, map_map.
    assert (E : map (fun x => searchsorted (map move idx) (move x - one_day)) idx = map (fun t => searchsorted idx (t - one_day)) idx).
    { apply map_ext. intros t. unfold searchsorted. rewrite (filter_map_f move _ (fun x => (x <? t - one_day)%Z)); [apply map_length|].
      intros x. unfold later. destruct (Z.ltb_spec (x + k * 1000000) (t + k * 1000000 - one_day)); destruct (Z.ltb_spec x (t - one_day)); lia || reflexivity. }
    rewrite E. set (fil := filter _ _). rewrite (mapM_on_ok move (fun p => get idx (p - 1))) by (intros; apply get_map_f).
    destruct (mapM _ fil) as [refs|]; [|reflexivity]. cbn [on_ok bind].
    assert (L : forall l, mapM (loc_value (map move idx) close) (map move l) = mapM (loc_value idx close) l).
    { intros l. rewrite mapM_map. apply mapM_same. intros x _. unfold loc_value. rewrite (position_map _ move_order). reflexivity. }
    rewrite skipn_map, !L. destruct (mapM _ (skipn _ _)) as [cur|]; [|reflexivity]. destruct (mapM _ refs) as [ref|]; [|reflexivity]. cbn [bind on_ok]. f_equal.
    apply combine_map_l.
  Qed.
  Theorem daily_vol_moved std idx (close : list (ext A)) : get_daily_vol std (map move idx) close = on_ok (map (retime_row move)) (get_daily_vol std idx close).
  Proof.
    unfold get_daily_vol. rewrite daily_returns_moved. destruct (daily_returns idx close) as [r|]; [|reflexivity]. cbn [on_ok bind]. f_equal.
    rewrite !map_map. cbn [retime_row fst snd]. rewrite <- (map_map fst move). apply combine_map_l.
  Qed.

  (** Barriers. *)
  Let phi (m : Z) : Z := if (m =? 0)%Z then 0%Z else (m + k)%Z.
  Let phi_hits (h : hits) : hits := {| h_pt := map phi (h_pt h); h_sl := map phi (h_sl h) |}.
  Variable index : list Z.
  Hypothesis Hindex : forall m, In m index -> m <> 0%Z.

  Lemma phi_index m : In m index -> phi m = (m + k)%Z.
  Proof. intros I. unfold phi. apply Hindex in I. destruct (Z.eqb_spec m 0); [contradiction|reflexivity]. Qed.

  Lemma first_moved t ts : (forall x, In x (t :: ts) -> In x index) -> list_minZ (t + k) (map up ts) = phi (list_minZ t ts).
  Proof. intros I. rewrite (list_min_map up up_order). symmetry. apply phi_index, I, list_minZ_In. Qed.
  Lemma iter_moved expiry (close side sl pt : list (ext A)) h i :
    barrier_iter (map up expiry) (map up index) close side sl pt (phi_hits h) i = phi_hits (barrier_iter expiry index close side sl pt h i).
  Proof.
    unfold barrier_iter. rewrite !nth_error_map. destruct (nth_error index i) as [ti|]; [|reflexivity]. destruct (nth_error expiry i) as [ei|]; [|reflexivity]. cbn [option_map].
    destruct (nth_error close i) as [ci|]; [|reflexivity]. destruct (nth_error side i) as [si|]; [|reflexivity]. destruct (nth_error sl i) as [sli|]; [|reflexivity].
    destruct (nth_error pt i) as [pti|]; [|reflexivity]. cbv zeta. rewrite map_map.
    assert (M : map (fun x => ((ti + k <=? x + k) && (x + k <? ei + k))%Z) index = map (fun t => ((ti <=? t) && (t <? ei))%Z) index).
    { apply map_ext. intros x. rewrite (f_leb up up_order ti x), (f_ltb up up_order x ei). reflexivity. }
    rewrite M, !mask_sel_map'.
    set (mask := map _ index). set (rets := map _ (mask_sel close mask)).
    assert (I : forall b x, In x (mask_sel (mask_sel index mask) b) -> In x index) by (intros b x H; eapply mask_sel_In, mask_sel_In, H).
    unfold phi_hits. cbn [h_pt h_sl]. f_equal.
    - specialize (I (map (fun r => eltb pti r) rets)). destruct (mask_sel (mask_sel index mask) (map (fun r => eltb pti r) rets)) as [|t ts]; [reflexivity|]. cbn [map].
      rewrite first_moved by exact I. apply set_at_map.
    - specialize (I (map (fun r => eltb r sli) rets)). destruct (mask_sel (mask_sel index mask) (map (fun r => eltb r sli) rets)) as [|t ts]; [reflexivity|]. cbn [map].
      rewrite first_moved by exact I. apply set_at_map.
  Qed.
  Lemma hits_moved order expiry (close side sl pt : list (ext A)) :
    get_horizontal_barriers_hit order (map up expiry) (map up index) close side sl pt = phi_hits (get_horizontal_barriers_hit order expiry index close side sl pt).
  Proof.
    unfold get_horizontal_barriers_hit. rewrite map_length.
    assert (R : forall n, repeat 0%Z n = map phi (repeat 0%Z n)) by (induction n; cbn; congruence).
    set (h0 := {| h_pt := repeat 0%Z (length expiry); h_sl := repeat 0%Z (length expiry) |}).
    assert (E : h0 = phi_hits h0) by (unfold h0, phi_hits; cbn; now rewrite <- R).
    rewrite E at 1. clear E. generalize h0. clear h0. induction order as [|i r IH]; intros h; [reflexivity|]. cbn [fold_left]. rewrite iter_moved. apply IH.
  Qed.
  Definition hit_value (t : Z) : Prop := t = 0%Z \/ In t index.
  Lemma hits_values order expiry (close side sl pt : list (ext A)) :
    Forall hit_value (h_pt (get_horizontal_barriers_hit order expiry index close side sl pt)) /\ Forall hit_value (h_sl (get_horizontal_barriers_hit order expiry index close side sl pt)).
  Proof.
    unfold get_horizontal_barriers_hit.
    assert (S : forall h i, Forall hit_value (h_pt h) /\ Forall hit_value (h_sl h) ->
              Forall hit_value (h_pt (barrier_iter expiry index close side sl pt h i)) /\ Forall hit_value (h_sl (barrier_iter expiry index close side sl pt h i))).
    { intros h i [H1 H2]. unfold barrier_iter. destruct (nth_error index i) as [ti|]; [|auto]. destruct (nth_error expiry i) as [ei|]; [|auto].
      destruct (nth_error close i) as [ci|]; [|auto]. destruct (nth_error side i) as [si|]; [|auto]. destruct (nth_error sl i) as [sli|]; [|auto].
      destruct (nth_error pt i) as [pti|]; [|auto]. cbv zeta. cbn [h_pt h_sl].
      set (mask := map _ index). set (rets := map _ (mask_sel close mask)).
      assert (I : forall b x, In x (mask_sel (mask_sel index mask) b) -> In x index) by (intros b x Hx; eapply mask_sel_In, mask_sel_In, Hx).
      split.
      - specialize (I (map (fun r => eltb pti r) rets)). destruct (mask_sel (mask_sel index mask) (map (fun r => eltb pti r) rets)) as [|t ts]; [exact H1|].
        apply Forall_forall. intros x Hx. apply set_at_In in Hx. destruct Hx as [->|Hx]; [right; apply I, list_minZ_In|]. now apply (proj1 (Forall_forall _ _) H1).
      - specialize (I (map (fun r => eltb r sli) rets)). destruct (mask_sel (mask_sel index mask) (map (fun r => eltb r sli) rets)) as [|t ts]; [exact H2|].
        apply Forall_forall. intros x Hx. apply set_at_In in Hx. destruct Hx as [->|Hx]; [right; apply I, list_minZ_In|]. now apply (proj1 (Forall_forall _ _) H2). }
    assert (Z0 : Forall hit_value (repeat 0%Z (length expiry))) by (apply Forall_forall; intros x Hx; apply repeat_spec in Hx; now left).
    match goal with |- Forall _ (h_pt (fold_left _ _ ?h)) /\ _ => assert (I : Forall hit_value (h_pt h) /\ Forall hit_value (h_sl h)) by (split; exact Z0); generalize h I end.
    induction order as [|i r IH]; intros h Hh; [exact Hh|]. cbn [fold_left]. apply IH, S, Hh.
  Qed.
  Hypothesis Hindex' : forall m, In m index -> (m + k <> 0)%Z.
  Lemma ms_to_datetime_moved t : hit_value t -> ms_to_datetime (phi t) = option_map move (ms_to_datetime t).
  Proof.
    intros [->|I]; [reflexivity|]. rewrite phi_index by exact I. unfold ms_to_datetime. pose proof (Hindex _ I). pose proof (Hindex' _ I).
    destruct (Z.eqb_spec (t + k) 0); [contradiction|]. destruct (Z.eqb_spec t 0); [contradiction|]. cbn. f_equal. unfold later. lia.
  Qed.
End Shift.

Definition moved_barriers (k : Z) (b : barriers) : barriers :=
  {| b_vertical := option_map (later k) (b_vertical b); b_stop := option_map (later k) (b_stop b); b_profit := option_map (later k) (b_profit b) |}.

Section Labels.
  Context {A : Type} `{HA : Arith A}.
  Variable k : Z.
  Notation move := (later k).

  Lemma tbl_moved order index (close : list (ext A)) vertical vol side present pt sl :
    (forall t, In t index -> to_ms t <> 0%Z /\ to_ms (move t) <> 0%Z) ->
    triple_barrier_labeling order (map move index) close (map (option_map move) vertical) vol side present pt sl =
    on_ok (map (moved_barriers k)) (triple_barrier_labeling order index close vertical vol side present pt sl).
  Proof.
    intros Hi. unfold triple_barrier_labeling. destruct (negb present); [reflexivity|]. destruct (_ && _); [reflexivity|]. rewrite <- map_rev.
    destruct (rev index) as [|z r] eqn:R; [reflexivity|]. cbn [map]. cbv zeta. cbn [on_ok]. f_equal.
    assert (E1 : map (fun v => to_ms (match v with Some t => t | None => move z end)) (map (option_map move) vertical) =
                 map (fun m => m + k)%Z (map (fun v => to_ms (match v with Some t => t | None => z end)) vertical)).
    { rewrite !map_map. apply map_ext. intros [t|]; cbn [option_map]; apply to_ms_move. }
    assert (E2 : map to_ms (map move index) = map (fun m => m + k)%Z (map to_ms index)).
    { rewrite !map_map. apply map_ext. intros t. apply to_ms_move. }
    rewrite E1, E2.
    assert (H1 : forall m, In m (map to_ms index) -> m <> 0%Z) by (intros m Hm; apply in_map_iff in Hm; destruct Hm as (t & <- & Ht); now apply Hi).
    assert (H2 : forall m, In m (map to_ms index) -> (m + k <> 0)%Z) by (intros m Hm; apply in_map_iff in Hm; destruct Hm as (t & <- & Ht); rewrite <- to_ms_move; now apply Hi).
    rewrite hits_moved by exact H1.
    match goal with |- context [get_horizontal_barriers_hit ?o ?e ?i ?c ?s ?a ?b] => destruct (hits_values (map to_ms index) o e c s a b) as [V1 V2];
      revert V1 V2; generalize (get_horizontal_barriers_hit o e i c s a b) end.
    intros h V1 V2. cbn [h_pt h_sl]. clear E1 E2 R.
    revert V1 V2. generalize (h_pt h), (h_sl h). clear h. induction vertical as [|v vs IH]; intros lp ls V1 V2; [reflexivity|]. destruct ls as [|s ls]; [reflexivity|]. destruct lp as [|p lp]; [reflexivity|].
    cbn [map combine]. inversion V1; subst. inversion V2; subst. rewrite IH by assumption. f_equal. unfold moved_barriers. cbn [fst snd b_vertical b_stop b_profit].
    f_equal; apply (ms_to_datetime_moved k (map to_ms index)); assumption.
  Qed.
  Lemma omin_moved x y : omin (option_map move x) (option_map move y) = option_map move (omin x y).
  Proof. destruct x, y; cbn; auto. f_equal. unfold later. lia. Qed.
  Lemma first_barrier_moved b : first_barrier (moved_barriers k b) = option_map move (first_barrier b).
  Proof. unfold first_barrier. cbn. now rewrite !omin_moved. Qed.
  Lemma label_row_moved index (close : list (ext A)) meta exp t s b e :
    label_row (map move index) close meta exp (move t) s (moved_barriers k b) (option_map move e) = label_row index close meta exp t s b e.
  Proof.
    unfold label_row. destruct e as [e|]; [|reflexivity]. cbn [option_map]. unfold loc_value. rewrite !(position_map _ (move_order k)).
    destruct (position e index) as [p|]; [|reflexivity]. destruct (get close p); [|reflexivity]. cbn [bind].
    destruct (position t index) as [q|]; [|reflexivity]. destruct (get close q); [|reflexivity]. cbn [bind].
    destruct b as [bv [bs|] [bp|]]; reflexivity.
  Qed.
  Lemma align_moved idx (s : list (Z * ext A)) : align (map move idx) (map (retime_row move) s) = align idx s.
  Proof.
    unfold align. rewrite map_map. apply map_ext. intros t.
    assert (E : find (fun r => (fst r =? move t)%Z) (map (retime_row move) s) = option_map (retime_row move) (find (fun r => (fst r =? t)%Z) s)).
    { induction s as [|r s IH]; [reflexivity|]. cbn [map find]. change (fst (retime_row move r)) with (move (fst r)). rewrite (f_eqb _ (move_order k)). destruct (fst r =? t)%Z; [reflexivity|exact IH]. }
    rewrite E. destruct (find _ s) as [r|]; reflexivity.
  Qed.
  Lemma shift_times_moved n idx : shift_times n (map move idx) = map (option_map move) (shift_times n idx).
  Proof.
    unfold shift_times. rewrite map_length, map_map. apply map_ext. intros i. cbv zeta. destruct (0 <=? Z.of_nat i + n)%Z; [|reflexivity]. apply nth_error_map.
  Qed.

  Theorem labels_moved std order (cfg : config A) y :
    (forall t, In t (f_index y) -> to_ms t <> 0%Z /\ to_ms (move t) <> 0%Z) ->
    transform (get_daily_vol std) order cfg (moved_bars k y) = on_ok (map (moved_label k)) (transform (get_daily_vol std) order cfg y).
  Proof.
    intros Hi. unfold transform. cbv zeta. assert (Ec : forall name, column (moved_bars k y) name = column y name) by reflexivity. rewrite !Ec. cbn [moved_bars f_index].
    destruct (column y (close_column cfg)) as [close|]; [|reflexivity]. destruct (_ && _); [reflexivity|].
    rewrite daily_vol_moved, shift_times_moved.
    match goal with |- bind ?a _ = on_ok _ (bind ?b _) => assert (Ev : a = b) end.
    { destruct (volatility_adjusted cfg); [|now rewrite map_map]. destruct (get_daily_vol std (f_index y) close) as [v|]; [|reflexivity]. cbn [on_ok bind]. now rewrite align_moved. }
    rewrite Ev. clear Ev. match goal with |- bind ?a _ = _ => destruct a as [vol|]; [|reflexivity] end. cbn [bind].
    match goal with |- bind ?a _ = on_ok _ (bind ?b _) => assert (Es : a = b) end.
    { destruct (column y SIDE); [reflexivity|]. now rewrite map_map. }
    rewrite Es. clear Es. match goal with |- bind ?a _ = _ => destruct a as [side|]; [|reflexivity] end. cbn [bind].
    rewrite tbl_moved by exact Hi. destruct (triple_barrier_labeling _ _ _ _ _ _ _ _ _) as [bs|]; [|reflexivity]. cbn [on_ok bind].
    assert (E1 : map first_barrier (map (moved_barriers k) bs) = map (option_map move) (map first_barrier bs)).
    { rewrite !map_map. apply map_ext, first_barrier_moved. }
    rewrite E1. set (ends := map first_barrier bs).
    assert (E0 : no_rows (map (option_map move) ends) = no_rows ends).
    { unfold no_rows. clear. induction ends as [|[e|] ends IH]; [reflexivity|reflexivity|exact IH]. }
    rewrite E0. clear E0. destruct (raise_if _ _) as [[]|]; [|reflexivity]. cbn [bind].
    assert (E2 : mapM (fun r => let '(t, s, b, e) := r in label_row (map move (f_index y)) close (metalabeling cfg) (expiration_label cfg) t s b e)
                   (combine (combine (combine (map move (f_index y)) side) (map (moved_barriers k) bs)) (map (option_map move) ends)) =
                 mapM (fun r => let '(t, s, b, e) := r in label_row (f_index y) close (metalabeling cfg) (expiration_label cfg) t s b e)
                   (combine (combine (combine (f_index y) side) bs) ends)).
    { clearbody ends. clear E1 Hi. assert (G : forall idx si b en, mapM (fun r => let '(t, s, b, e) := r in label_row (map move (f_index y)) close (metalabeling cfg) (expiration_label cfg) t s b e)
                   (combine (combine (combine (map move idx) si) (map (moved_barriers k) b)) (map (option_map move) en)) =
                 mapM (fun r => let '(t, s, b, e) := r in label_row (f_index y) close (metalabeling cfg) (expiration_label cfg) t s b e)
                   (combine (combine (combine idx si) b) en)).
      { induction idx as [|t idx IH]; intros [|s si] [|b b'] [|e en]; try reflexivity. cbn [map combine mapM]. rewrite label_row_moved, IH. reflexivity. }
      apply G. }
    rewrite E2. clear E2. destruct (mapM _ _) as [labels|]; [|reflexivity]. cbn [bind on_ok]. f_equal. clear E1. clearbody ends. revert ends labels.
    induction vol as [|v vol IH]; intros [|e ends] [|l labels]; try reflexivity. cbn [map combine]. rewrite IH. f_equal. unfold moved_label.
    destruct (is_nan v); [reflexivity|]. destruct l as [[r lab]|]; reflexivity.
  Qed.
End Labels.

(** Return weights. *)
Lemma concurrent_moved k m idx t : concurrent_at m (map (later k) idx) (later k t) = concurrent_at m idx t.
Proof. unfold concurrent_at. now rewrite (position_map _ (move_order k)). Qed.
Theorem weights_moved k X : returns_transform (map (moved_row k) X) = on_ok (map (retime_row (later k))) (returns_transform X).
Proof.
  unfold returns_transform. rewrite !map_map. cbn [moved_row w_start w_end w_close].
  rewrite <- (map_map w_start (later k)).
  assert (E : map (fun x => (Some (later k (w_start x)), option_map (later k) (w_end x))) X = map (retime_sample (later k)) (map (fun r => (Some (w_start r), w_end r)) X)) by (now rewrite map_map).
  rewrite E, (ind_matrix_retimed _ (move_order k)). destruct (get_ind_matrix _ _) as [[m idx]|]; [|reflexivity]. cbn [on_ok bind fst snd].
  rewrite mapM_map. rewrite (mapM_same (concurrent_at m idx)) by (intros; apply concurrent_moved). destruct (mapM _ (map w_start X)) as [conc|]; [|reflexivity]. cbn [bind]. cbv zeta. cbn [on_ok].
  assert (E2 : flat_map (fun r => match w_end r with Some e => [e] | None => [] end) (map (moved_row k) X) = map (later k) (flat_map (fun r => match w_end r with Some e => [e] | None => [] end) X)).
  { clear. induction X as [|r X IH]; [reflexivity|]. cbn [map flat_map]. rewrite IH, map_app. cbn [moved_row w_end]. destruct (w_end r); reflexivity. }
  rewrite E2. set (ends := flat_map _ X). set (starts := map w_start X). f_equal. rewrite combine_map_l. do 2 f_equal.
  assert (E3 : forall l, map to_ms (map (later k) l) = map (fun m => m + k)%Z (map to_ms l)) by (intros l; rewrite !map_map; apply map_ext; intros; apply to_ms_move).
  assert (Em : map (fun x => to_ms (later k (w_start x))) X = map (fun m => m + k)%Z (map to_ms starts)) by (unfold starts; rewrite !map_map; apply map_ext; intros; apply to_ms_move).
  assert (Em2 : map (fun x => to_ms (w_start x)) X = map to_ms starts) by (unfold starts; now rewrite map_map).
  rewrite Em, Em2, E3.
  unfold calculate_weights.
  assert (E4 : forall a b, combine (map (fun m => m + k)%Z a) (map (fun m => m + k)%Z b) = map (fun p => (fst p + k, snd p + k)%Z) (combine a b)).
  { induction a as [|x a IH]; intros [|z b]; cbn; auto. now rewrite IH. }
  rewrite E4, map_map. apply map_ext. intros [s e]. cbn [fst snd]. cbv zeta.
  assert (E5 : map (fun b => ((s + k <=? b) && (b <=? e + k))%Z) (map (fun m => m + k)%Z (map to_ms starts)) = map (fun b => ((s <=? b) && (b <=? e))%Z) (map to_ms starts)).
  { rewrite !map_map. apply map_ext. intros b. now rewrite (f_leb _ (up_order k) s), (f_leb _ (up_order k) _ e). }
  now rewrite E5.
Qed.
