(** Labels of the opposite bets. *)
From Coq Require Import Reals Lra String.
From Verif Require Import PreludeFacts Series Boot_Model DailyVol_Model Label_Model Weights_Model Mirror_Spec.
Local Open Scope nat_scope.

Lemma asign_opp (v : R) : asign (- v)%R = match asign v with Lt => Gt | Eq => Eq | Gt => Lt end.
Proof.
  unfold asign. cbn. destruct (Rlt_dec (- v) 0), (Rlt_dec v 0), (Rlt_dec 0 v), (Rlt_dec 0 (- v)); auto; lra.
Qed.
Lemma emul_opp x s : emul x (opposite s) = opposite (emul x s).
Proof.
  destruct x as [x| | |], s as [s| | |]; cbn; auto; try (f_equal; ring); rewrite ?asign_opp.
  all: try (destruct (asign x); reflexivity). all: destruct (asign s); reflexivity.
Qed.
Lemma emul_opp_l (f : R) v : emul (Fin (- f)%R) v = opposite (emul (Fin f) v).
Proof.
  destruct v as [v| | |]; cbn; auto; try (f_equal; ring); rewrite ?asign_opp; destruct (asign f); reflexivity.
Qed.
Lemma eltb_opp x y : eltb (opposite x) (opposite y) = eltb y x.
Proof.
  destruct x as [x| | |], y as [y| | |]; cbn; auto. destruct (Rlt_dec (- x) (- y)), (Rlt_dec y x); auto; lra.
Qed.
Lemma opp_opp x : opposite (opposite x) = x.
Proof. destruct x; cbn; auto. f_equal. ring. Qed.

Definition swap_hits (h : hits) : hits := {| h_pt := h_sl h; h_sl := h_pt h |}.

Lemma iter_mirror expiry index close side sl pt h i :
  barrier_iter expiry index close (map opposite side) (map opposite pt) (map opposite sl) (swap_hits h) i = swap_hits (barrier_iter expiry index close side sl pt h i).
Proof.
  unfold barrier_iter. rewrite !nth_error_map. destruct (nth_error index i), (nth_error expiry i), (nth_error close i) as [ci|]; auto.
  destruct (nth_error side i) as [si|]; cbn [option_map]; auto. destruct (nth_error sl i) as [s|], (nth_error pt i) as [p|]; cbn [option_map]; auto.
  rewrite !map_map.
  rewrite (map_ext (fun x => eltb (emul (esub (ediv x ci) (Fin a1)) (opposite si)) (opposite p)) (fun x => eltb p (emul (esub (ediv x ci) (Fin a1)) si)))
    by (intros x; now rewrite emul_opp, eltb_opp).
  rewrite (map_ext (fun x => eltb (opposite s) (emul (esub (ediv x ci) (Fin a1)) (opposite si))) (fun x => eltb (emul (esub (ediv x ci) (Fin a1)) si) s))
    by (intros x; now rewrite emul_opp, eltb_opp).
  reflexivity.
Qed.
Lemma loop_mirror order expiry index close side sl pt : forall h,
  fold_left (barrier_iter expiry index close (map opposite side) (map opposite pt) (map opposite sl)) order (swap_hits h) =
  swap_hits (fold_left (barrier_iter expiry index close side sl pt) order h).
Proof. induction order as [|i order IH]; intros h; [reflexivity|]. cbn [fold_left]. rewrite iter_mirror. apply IH. Qed.

Definition swap_barriers (b : barriers) : barriers := {| b_vertical := b_vertical b; b_stop := b_profit b; b_profit := b_stop b |}.

Lemma stop_opp (f : R) vol : stop_barriers f vol = map opposite (profit_barriers f vol).
Proof.
  unfold stop_barriers, profit_barriers. destruct (altb a0 f); rewrite map_map; [|reflexivity]. apply map_ext. intros v. apply emul_opp_l.
Qed.
Lemma profit_opp (f : R) vol : profit_barriers f vol = map opposite (stop_barriers f vol).
Proof. rewrite stop_opp, map_map. rewrite <- (map_id (profit_barriers f vol)) at 1. apply map_ext. intros v. now rewrite opp_opp. Qed.

Lemma combine_swap (vertical : list (option Z)) : forall a b : list Z,
  map (fun r => {| b_vertical := fst (fst r); b_stop := ms_to_datetime (snd (fst r)); b_profit := ms_to_datetime (snd r) |}) (combine (combine vertical a) b) =
  map swap_barriers (map (fun r => {| b_vertical := fst (fst r); b_stop := ms_to_datetime (snd (fst r)); b_profit := ms_to_datetime (snd r) |}) (combine (combine vertical b) a)).
Proof. induction vertical as [|v vertical IH]; intros [|x a] [|y b]; cbn; auto. f_equal. apply IH. Qed.

Lemma barriers_mirror order index close vertical vol side present (pt sl : R) :
  triple_barrier_labeling order index close vertical vol (map opposite side) present sl pt =
  match triple_barrier_labeling order index close vertical vol side present pt sl with Ok bs => Ok (map swap_barriers bs) | Err e => Err e end.
Proof.
  unfold triple_barrier_labeling. destruct (negb present); auto. rewrite (andb_comm (altb sl a0)). destruct (altb pt a0 && altb sl a0); auto.
  destruct (rev index) as [|last r]; auto. cbv zeta. f_equal. unfold get_horizontal_barriers_hit.
  rewrite (stop_opp pt vol), (profit_opp sl vol).
  match goal with |- context [fold_left (barrier_iter ?e ?i close (map opposite side) _ _) order ?h0] =>
    rewrite (loop_mirror order e i close side (stop_barriers sl vol) (profit_barriers pt vol) h0 : fold_left _ order h0 = _) end.
  rewrite combine_swap. reflexivity.
Qed.

Lemma first_mirror b : first_barrier (swap_barriers b) = first_barrier b.
Proof.
  unfold first_barrier. destruct b as [[v|] [s|] [p|]]; cbn; auto; f_equal; lia.
Qed.

Definition row_mirror (meta exp : bool) (r r' : option (ext R * ext R)) : Prop :=
  match r, r' with
  | Some (x, l), Some (x', l') => (meta = true -> x' = opposite x) /\ (meta = true -> exp = false -> other_label l l') /\ (meta = false -> x' = x /\ l' = l)
  | None, None => True
  | _, _ => False
  end.
Lemma meta_mirror x : other_label (meta_label x) (meta_label (opposite x)).
Proof.
  unfold meta_label, other_label. destruct x as [x| | |]; cbn; auto. destruct (Rlt_dec 0 x), (Rlt_dec x 0), (Rlt_dec 0 (- x)), (Rlt_dec (- x) 0); auto; lra.
Qed.
Lemma label_mirror index close meta exp start side b e :
  match label_row index close meta exp start side b e, label_row index close meta exp start (opposite side) (swap_barriers b) e with
  | Ok r, Ok r' => row_mirror meta exp r r' | Err x, Err y => x = y | _, _ => False end.
Proof.
  unfold label_row. destruct e as [e|]; [|exact I]. destruct (loc_value index close e); [|reflexivity]. cbn [bind]. destruct (loc_value index close start); [|reflexivity]. cbn [bind].
  destruct meta, exp; cbn [row_mirror swap_barriers b_stop b_profit].
  - repeat split; intros; try discriminate. apply emul_opp.
  - repeat split; intros; try discriminate; [apply emul_opp|rewrite emul_opp; apply meta_mirror].
  - repeat split; intros; try discriminate. now destruct (b_stop b), (b_profit b).
  - repeat split; intros; discriminate.
Qed.

Definition out_mirror (meta exp : bool) (r r' : out_row R) : Prop :=
  o_end r' = o_end r /\ o_vol r' = o_vol r /\ (meta = true -> o_return r' = opposite (o_return r)) /\
  (meta = true -> exp = false -> other_label (o_label r) (o_label r')) /\ (meta = false -> o_return r' = o_return r /\ o_label r' = o_label r).

Theorem labels_mirror daily_vol order (cfg : config R) y y' : close_column cfg <> "side"%string -> column y "side" <> None -> opposite_sides y y' ->
  match transform daily_vol order cfg y, transform daily_vol order (exchanged cfg) y' with
  | Ok rows, Ok rows' => Forall2 (out_mirror (metalabeling cfg) (expiration_label cfg)) rows rows'
  | Err e, Err e' => e' = e
  | _, _ => False
  end.
Proof.
  intros Hc Hs (Hi & Hside & Ho). unfold transform. cbn [exchanged n_expiration_bars profit_taking_factor stop_loss_factor metalabeling close_column side_column volatility_adjusted expiration_label].
  rewrite (Ho _ Hc), Hi. destruct (column y (close_column cfg)) as [close|]; [|reflexivity].
  unfold SIDE in *. rewrite Hside. destruct (column y "side") as [s0|] eqn:Es; [clear Hs|congruence]. cbn [option_map].
  destruct (String.eqb_spec (side_column cfg) "side") as [E|N].
  - rewrite E, Es, Hside. cbn [option_map]. rewrite andb_false_r. cbv zeta.
    destruct (if volatility_adjusted cfg then _ else _) as [vol|]; [|reflexivity]. cbn [bind]. rewrite barriers_mirror.
    destruct (triple_barrier_labeling _ _ _ _ _ _ _ _ _) as [bs|]; [|reflexivity]. cbn [bind]. rewrite map_map, (map_ext _ _ first_mirror).
    destruct (raise_if _ _) as [[]|]; [|reflexivity]. cbn [bind].
    assert (L : forall idx s0 bs es,
      match mapM (fun r => let '(t, s, b, e) := r in label_row (f_index y) close (metalabeling cfg) (expiration_label cfg) t s b e) (combine (combine (combine idx s0) bs) es),
      mapM (fun r => let '(t, s, b, e) := r in label_row (f_index y) close (metalabeling cfg) (expiration_label cfg) t s b e) (combine (combine (combine idx (map opposite s0)) (map swap_barriers bs)) es) with
      | Ok l, Ok l' => Forall2 (row_mirror (metalabeling cfg) (expiration_label cfg)) l l' | Err x, Err x' => x' = x | _, _ => False end).
    { clear. induction idx as [|t idx IH]; intros [|s s0] [|b bs] [|e es]; cbn [combine map mapM]; try (now constructor).
      pose proof (label_mirror (f_index y) close (metalabeling cfg) (expiration_label cfg) t s b e) as H.
      destruct (label_row _ _ _ _ _ s _ _) as [r|], (label_row _ _ _ _ _ (opposite s) _ _) as [r'|]; cbn [bind]; try easy.
      specialize (IH s0 bs es). destruct (mapM _ (combine (combine (combine idx s0) bs) es)) as [l|], (mapM _ (combine (combine (combine idx (map opposite s0)) _) es)) as [l'|]; cbn [bind]; try easy.
      now constructor. }
    specialize (L (f_index y) s0 bs (map first_barrier bs)). destruct (mapM _ (combine (combine (combine _ s0) _) _)) as [l|], (mapM _ (combine (combine (combine _ (map opposite s0)) _) _)) as [l'|]; cbn [bind]; try easy.
    clear - L. generalize (map first_barrier bs). clear bs. intros es. revert vol es. induction L as [|r r' l l' Hr _ IH]; intros [|v vol] [|e es]; cbn [combine map]; try constructor; try (now rewrite ?combine_nil); auto.
    unfold out_mirror. destruct (is_nan v); cbn; [repeat split; auto; intros; right; right; now split|].
    destruct r as [[x lab]|], r' as [[x' lab']|]; cbn in *; try contradiction; try (split; [reflexivity|]; split; [reflexivity|]; tauto). repeat split; auto; intros; right; right; now split.
  - rewrite (Ho _ N). destruct (metalabeling cfg && _); [reflexivity|]. cbv zeta. destruct (if volatility_adjusted cfg then _ else _) as [vol|]; [|reflexivity]. cbn [bind].
    destruct (column y (side_column cfg)); [|reflexivity]. cbn [bind]. reflexivity.
Qed.
