(** Labels, weights and events do not depend on the unit of the prices. *)
From Coq Require Import Reals Lra String.
From Verif Require Import PreludeFacts Series Boot_Model DailyVol_Model Label_Model Weights_Model Cusum_Model Scale_Spec.
Local Open Scope nat_scope.

Lemma asign_units (c v : R) : (0 < c)%R -> asign (c * v)%R = asign v.
Proof.
  intros Hc. unfold asign. cbn. destruct (Rlt_dec v 0) as [H|H].
  - destruct (Rlt_dec (c * v) 0) as [|N]; [reflexivity|]. exfalso. apply N. replace 0%R with (c * 0)%R by ring. now apply Rmult_lt_compat_l.
  - destruct (Rlt_dec (c * v) 0) as [N|]; [exfalso; apply H; apply (Rmult_lt_reg_l c); [exact Hc|lra]|].
    destruct (Rlt_dec 0 v) as [P|P]; destruct (Rlt_dec 0 (c * v)) as [P'|P']; auto.
    + exfalso. apply P'. now apply Rmult_lt_0_compat.
    + exfalso. apply P. apply (Rmult_lt_reg_l c); [exact Hc|lra].
Qed.

Lemma ediv_units (c : R) x y : (0 < c)%R -> ediv (in_units c x) (in_units c y) = ediv x y.
Proof.
  intros Hc. destruct x as [x| | |], y as [y| | |]; cbn; auto.
  - destruct (Req_EM_T y 0) as [->|H].
    + destruct (Req_EM_T (c * 0) 0) as [_|N]; [now rewrite asign_units|exfalso; apply N; ring].
    + destruct (Req_EM_T (c * y) 0) as [E|_]; [exfalso; apply Rmult_integral in E; lra|]. f_equal. unfold adiv. cbn. field. split; lra.
  - now rewrite asign_units.
  - now rewrite asign_units.
Qed.

Lemma get_map {A B} (f : A -> B) l i : get (map f l) i = match get l i with Ok x => Ok (f x) | Err e => Err e end.
Proof. unfold get. rewrite nth_error_map. now destruct (nth_error l i). Qed.
Lemma loc_value_units (c : R) idx vals t : loc_value idx (map (in_units c) vals) t = match loc_value idx vals t with Ok x => Ok (in_units c x) | Err e => Err e end.
Proof. unfold loc_value. destruct (position t idx); [apply get_map|reflexivity]. Qed.
Lemma mapM_units (c : R) idx vals l : mapM (loc_value idx (map (in_units c) vals)) l = match mapM (loc_value idx vals) l with Ok r => Ok (map (in_units c) r) | Err e => Err e end.
Proof.
  induction l as [|t l IH]; [reflexivity|]. cbn [mapM]. rewrite loc_value_units. destruct (loc_value idx vals t); [|reflexivity]. cbn [bind]. rewrite IH.
  now destruct (mapM (loc_value idx vals) l).
Qed.
Lemma zipw_units (c : R) a b : (0 < c)%R -> zipw ediv (map (in_units c) a) (map (in_units c) b) = zipw ediv a b.
Proof.
  intros Hc. unfold zipw. revert b. induction a as [|x a IH]; intros [|y b]; cbn; auto. f_equal; [now apply ediv_units|apply IH].
Qed.

Theorem daily_vol_units (c : R) std idx close : (0 < c)%R -> get_daily_vol std idx (map (in_units c) close) = get_daily_vol std idx close.
Proof.
  intros Hc. unfold get_daily_vol, daily_returns. destruct (mapM _ (filter _ _)) as [refs|]; [|reflexivity]. cbn [bind]. rewrite !mapM_units.
  destruct (mapM (loc_value idx close) (skipn _ _)); [|reflexivity]. cbn [bind]. destruct (mapM (loc_value idx close) refs); [|reflexivity]. cbn [bind]. now rewrite zipw_units.
Qed.

Lemma mask_sel_map {A B} (f : A -> B) l m : mask_sel (map f l) m = map f (mask_sel l m).
Proof.
  unfold mask_sel. revert m. induction l as [|x l IH]; intros [|b m]; cbn; auto. destruct b; cbn; now rewrite IH.
Qed.

Lemma barrier_iter_units (c : R) expiry index close side sl pt h i : (0 < c)%R ->
  barrier_iter expiry index (map (in_units c) close) side sl pt h i = barrier_iter expiry index close side sl pt h i.
Proof.
  intros Hc. unfold barrier_iter. rewrite nth_error_map. destruct (nth_error index i), (nth_error expiry i), (nth_error close i) as [ci|]; auto. cbn [option_map].
  destruct (nth_error side i) as [si|]; auto. destruct (nth_error sl i), (nth_error pt i); auto.
  rewrite mask_sel_map, (map_map (in_units c)).
  rewrite (map_ext (fun x => emul (esub (ediv (in_units c x) (in_units c ci)) (Fin a1)) si) (fun x => emul (esub (ediv x ci) (Fin a1)) si)); [reflexivity|].
  intros x. now rewrite ediv_units.
Qed.

Lemma hits_units (c : R) order expiry index close side sl pt : (0 < c)%R ->
  get_horizontal_barriers_hit order expiry index (map (in_units c) close) side sl pt = get_horizontal_barriers_hit order expiry index close side sl pt.
Proof.
  intros Hc. unfold get_horizontal_barriers_hit. generalize {| h_pt := repeat 0%Z (length expiry); h_sl := repeat 0%Z (length expiry) |}.
  induction order as [|i order IH]; intros h; [reflexivity|]. cbn [fold_left]. rewrite barrier_iter_units by exact Hc. apply IH.
Qed.
Lemma tbl_units (c : R) order index close vertical vol side present pt sl : (0 < c)%R ->
  triple_barrier_labeling order index (map (in_units c) close) vertical vol side present pt sl = triple_barrier_labeling order index close vertical vol side present pt sl.
Proof.
  intros Hc. unfold triple_barrier_labeling. destruct (negb present); [reflexivity|]. destruct (altb pt a0 && altb sl a0); [reflexivity|]. destruct (rev index); [reflexivity|].
  cbv zeta. now rewrite hits_units.
Qed.
Lemma label_row_units (c : R) index close meta exp start side b e : (0 < c)%R ->
  label_row index (map (in_units c) close) meta exp start side b e = label_row index close meta exp start side b e.
Proof.
  intros Hc. unfold label_row. destruct e as [e|]; [|reflexivity]. rewrite !loc_value_units. destruct (loc_value index close e); [|reflexivity]. cbn [bind].
  destruct (loc_value index close start); [|reflexivity]. cbn [bind]. now rewrite ediv_units.
Qed.

Theorem labels_units (c : R) std order (cfg : config R) y y' : (0 < c)%R -> close_column cfg <> side_column cfg -> close_column cfg <> "side"%string ->
  same_but_prices c (close_column cfg) y y' ->
  transform (get_daily_vol std) order cfg y' = transform (get_daily_vol std) order cfg y.
Proof.
  intros Hc Hs Hs' (Hi & Hp & Ho). unfold transform. rewrite Hp. destruct (column y (close_column cfg)) as [close|]; [|reflexivity]. cbn [option_map].
  rewrite Hi, (Ho (side_column cfg)) by congruence. unfold SIDE. rewrite (Ho "side"%string) by congruence. rewrite daily_vol_units by exact Hc.
  destruct (metalabeling cfg && _); [reflexivity|]. destruct (if volatility_adjusted cfg then _ else _) as [vol|]; [|reflexivity]. cbn [bind].
  destruct (match column y "side" with Some _ => _ | None => _ end) as [side|]; [|reflexivity]. cbn [bind]. rewrite tbl_units by exact Hc.
  destruct (triple_barrier_labeling _ _ _ _ _ _ _ _ _) as [bs|]; [|reflexivity]. cbn [bind]. destruct (raise_if _ _) as [[]|]; [|reflexivity]. cbn [bind].
  assert (E : forall l, mapM (fun r => let '(t, s, b, e) := r in label_row (f_index y) (map (in_units c) close) (metalabeling cfg) (expiration_label cfg) t s b e) l =
                        mapM (fun r => let '(t, s, b, e) := r in label_row (f_index y) close (metalabeling cfg) (expiration_label cfg) t s b e) l).
  { induction l as [|[[[t s] b] e] l IH]; [reflexivity|]. cbn [mapM]. rewrite label_row_units by exact Hc. destruct (label_row _ _ _ _ _ _ _ _); [|reflexivity]. cbn [bind]. now rewrite IH. }
  now rewrite E.
Qed.

(** ** Weights *)
Lemma elog_units_sub (c : R) x y : (0 < c)%R -> esub (elog (in_units c x)) (elog (in_units c y)) = esub (elog x) (elog y).
Proof.
  intros Hc.
  assert (E : forall v : R, elog (in_units c (Fin v)) = match elog (Fin v) with Fin l => Fin (ln c + l)%R | o => o end).
  { intros v. cbn. destruct (Rlt_dec 0 v) as [H|H].
    - destruct (Rlt_dec 0 (c * v)) as [|N]; [now rewrite ln_mult|exfalso; apply N; now apply Rmult_lt_0_compat].
    - destruct (Rlt_dec 0 (c * v)) as [P|P].
      + exfalso. apply H. apply (Rmult_lt_reg_l c); [exact Hc|]. now rewrite Rmult_0_r.
      + destruct (Req_EM_T v 0) as [->|N]; [destruct (Req_EM_T (c * 0) 0) as [|N]; [reflexivity|exfalso; apply N; ring]|].
        destruct (Req_EM_T (c * v) 0) as [Z0|]; [exfalso; apply Rmult_integral in Z0; lra|reflexivity]. }
  destruct x as [x| | |], y as [y| | |]; rewrite ?E; try reflexivity.
  - destruct (elog (Fin x)), (elog (Fin y)); cbn; auto. f_equal. ring.
  - destruct (elog (Fin x)); reflexivity.
  - destruct (elog (Fin x)); reflexivity.
  - destruct (elog (Fin x)); reflexivity.
  - destruct (elog (Fin y)); reflexivity.
Qed.
Lemma diff_log_units (c : R) l : (0 < c)%R -> diff (map elog (map (in_units c) l)) = diff (map elog l).
Proof.
  intros Hc. unfold diff, shift1. rewrite !map_length.
  assert (G : forall l p q, (forall x, esub (elog (in_units c x)) p = esub (elog x) q) -> zipw esub (map elog (map (in_units c) l)) (firstn (length l) (p :: map elog (map (in_units c) l))) = zipw esub (map elog l) (firstn (length l) (q :: map elog l))).
  { clear -Hc. induction l as [|x l IH]; intros p q H; [reflexivity|]. cbn [map length firstn]. unfold zipw. cbn [combine map fst snd]. rewrite H. f_equal.
    apply IH. intros z. now apply elog_units_sub. }
  apply G. intros x. destruct x as [v| | |]; cbn [in_units]; try reflexivity. destruct (elog (Fin (amul c v))), (elog (Fin v)); reflexivity.
Qed.
Theorem weights_units (c : R) X X' : (0 < c)%R -> same_but_close c X X' -> returns_transform X' = returns_transform X.
Proof.
  intros Hc ->. unfold returns_transform. rewrite !map_map. cbn [w_start w_end w_close].
  assert (E : map (fun r : wrow => elog (in_units c (w_close r))) X = map elog (map (in_units c) (map w_close X))) by (now rewrite !map_map).
  assert (E' : map (fun r : wrow => elog (w_close r)) X = map elog (map w_close X)) by (now rewrite map_map). rewrite E, E', diff_log_units by exact Hc.
  assert (E2 : forall g, flat_map (fun r => match w_end r with Some e => [e] | None => [] end) (map g X) = flat_map (fun r => match w_end (g r) with Some e => [e : Z] | None => [] end) X).
  { intros g. rewrite !flat_map_concat_map, map_map. reflexivity. }
  rewrite E2. reflexivity.
Qed.
