(** Proofs for the trend scanner with any step and any minimum length. *)
From Coq Require Import Reals Lra.
From Verif Require Import PreludeFacts Series Boot_Model Boot_Proofs Boot_Proofs2 Label_Model Label_Proofs2 DailyVol_Proofs OLS_Model OLS_Spec OLS_Proofs
  Trend_Model Trend_Spec Trend_Spec2 Trend_Proofs Trend_Proofs2 Trend_Proofs3.
Local Open Scope nat_scope.

Lemma arange_In a b s : 1 <= s -> exists ws, arange a b s = Ok ws /\ forall w, In w ws <-> w < b /\ exists j, w = a + j * s.
Proof.
  intros Hs. destruct s as [|s]; [lia|]. eexists. split; [reflexivity|]. intros w. rewrite in_map_iff.
  set (S' := S s). assert (HS : S' <> 0) by (unfold S'; lia).
  assert (Hc : forall j, j < (b - a + (S' - 1)) / S' <-> j * S' < b - a).
  { intros j. pose proof (Nat.div_mod (b - a + (S' - 1)) S' HS) as E. pose proof (Nat.mod_upper_bound (b - a + (S' - 1)) S' HS) as Hm.
    set (q := (b - a + (S' - 1)) / S') in *. split; intros H; nia. }
  split.
  - intros (j & <- & Hj). apply in_seq in Hj. destruct Hj as [_ Hj]. rewrite Nat.add_0_l in Hj. apply Hc in Hj. split; [lia|eauto].
  - intros (Hw & j & ->). exists j. split; auto. apply in_seq. split; [lia|]. rewrite Nat.add_0_l. apply Hc. lia.
Qed.

Section Fold.
  Variable f : nat -> result (ext R).
  Variable m : nat.
  Let step := fun (arr : list (ext R)) w => do t <- f w ;; Ok (set_at arr (w - m) t).

  Lemma fold_ok (g : nat -> ext R) ws : forall arr, (forall w, In w ws -> m <= w < m + length arr /\ f w = Ok (g w)) ->
    exists arr', foldM step arr ws = Ok arr' /\ length arr' = length arr /\
      forall i, (In (m + i) ws -> nth_error arr' i = Some (g (m + i))) /\ (~ In (m + i) ws -> nth_error arr' i = nth_error arr i).
  Proof.
    induction ws as [|w ws IH]; intros arr H; cbn [foldM].
    - exists arr. split; auto. split; auto. intros i. split; [intros []|auto].
    - destruct (H w (or_introl eq_refl)) as [Hw Ef]. unfold step at 1. rewrite Ef. cbn [bind].
      destruct (IH (set_at arr (w - m) (g w))) as (arr' & E & Hl & Hn).
      { intros v Hv. rewrite set_at_length. apply H. now right. }
      exists arr'. split; auto. split; [now rewrite Hl, set_at_length|]. intros i. destruct (Hn i) as [H1 H2].
      destruct (in_dec Nat.eq_dec (m + i) ws) as [Hi|Hi].
      + split; [auto|]. intros N. elim N. now right.
      + rewrite H2 by auto. rewrite set_at_nth by lia. split.
        * intros [->|]; [|contradiction]. rewrite (proj2 (Nat.eqb_eq _ _)) by lia. reflexivity.
        * intros N. destruct (Nat.eqb_spec i (w - m)) as [E'|_]; auto. elim N. left. lia.
  Qed.

  Lemma fold_err e ws : forall arr, (forall w, In w ws -> f w = Err e \/ exists x, f w = Ok x) -> (exists w, In w ws /\ f w = Err e) ->
    foldM step arr ws = Err e.
  Proof.
    induction ws as [|w ws IH]; intros arr H (v & Hv & E); [destruct Hv|]. cbn [foldM]. unfold step at 1.
    destruct (H w (or_introl eq_refl)) as [Ef|[x Ef]]; rewrite Ef; cbn [bind]; [reflexivity|].
    destruct Hv as [->|Hv]; [congruence|]. apply IH; eauto. intros. apply H. now right.
  Qed.
End Fold.

Lemma nth_error_list_eq {A} (l l' : list A) : (forall i, nth_error l i = nth_error l' i) -> l = l'.
Proof.
  revert l'. induction l as [|x l IH]; intros [|x' l'] H; auto; try (specialize (H 0); discriminate).
  pose proof (H 0) as H0. injection H0 as ->. f_equal. apply IH. intros i. exact (H (S i)).
Qed.

(** One call, event by event. *)
Lemma transform_cases inv junk cfg events y (P : Z -> trend_row -> Prop) (bad : Z -> Prop) e :
  incl (events_of events y) (map fst y) ->
  (forall n t, In t (map fst y) ->
     (exists r, one_row inv cfg junk y (n, t) = Ok r /\ P t r /\ ~ bad t) \/ (one_row inv cfg junk y (n, t) = Err e /\ bad t)) ->
  (forall rows, snd (transform inv junk cfg events y) = Ok rows -> Forall2 P (events_of events y) rows) /\
  ((exists t, In t (events_of events y) /\ bad t) -> snd (transform inv junk cfg events y) = Err e) /\
  ((forall t, In t (events_of events y) -> ~ bad t) -> exists rows, snd (transform inv junk cfg events y) = Ok rows).
Proof.
  intros Hincl H. rewrite transform_unfold. change (ev_of events y) with (events_of events y). rewrite (proj2 (known_iff _ _)) by exact Hincl.
  revert Hincl. generalize 0. generalize (events_of events y) as ev. induction ev as [|t ev IH]; intros s Hincl; cbn [length seq combine mapM].
  - split; [intros rows E; injection E as <-; constructor|]. split; [intros (? & [] & _)|eauto].
  - destruct (IH (S s)) as (IH1 & IH2 & IH3); [intros x Hx; apply Hincl; now right|].
    destruct (H s t (Hincl t (or_introl eq_refl))) as [(r & E & Hr & Hb)|(E & Hb)]; rewrite E; cbn [bind].
    + split; [|split].
      * intros rows. destruct (mapM _ _) as [rs|] eqn:Em; cbn [bind]; intros X; [|discriminate]. injection X as <-. constructor; auto.
      * intros (t' & [<-|Ht] & Hb'); [contradiction|]. rewrite IH2 by eauto. reflexivity.
      * intros Hall. destruct IH3 as [rs Hrs]; [intros; apply Hall; now right|]. rewrite Hrs. cbn [bind]. eauto.
    + split; [discriminate|]. split; [reflexivity|]. intros Hall. elim (Hall t (or_introl eq_refl) Hb).
Qed.

(** The bar of an event. *)
Lemma event_bar (y : list (Z * R)) t : In t (map fst y) -> increasingZ (map fst y) ->
  exists p p0, position t (map fst y) = Some p /\ event_at y t p p0 /\ p < length y /\ forall k q, event_at y t k q -> k = p /\ q = p0.
Proof.
  intros Hin Hinc. destruct (position_In _ _ Hin) as [p Hp]. pose proof (position_Some _ _ _ Hp) as Hq.
  rewrite nth_error_map in Hq. destruct (nth_error y p) as [[t' p0]|] eqn:Ep; [|discriminate]. cbn in Hq. injection Hq as ->.
  exists p, p0. split; auto. split; [exact Ep|]. split; [apply nth_error_Some; congruence|].
  intros k q Hk. unfold event_at in Hk. assert (k = p) as ->.
  { apply (incZ_nth_inj _ k p t Hinc); rewrite nth_error_map; [now rewrite Hk|now rewrite Ep]. }
  split; auto. congruence.
Qed.

Lemma empty_row_of y t p : exists r, trend_row_of y t p None = Ok r /\ empty_row t r.
Proof. eexists. split; [reflexivity|]. repeat split. Qed.
Lemma full_row_of y t p p0 w x : event_at y t p p0 -> 1 <= w -> p + w <= length y ->
  exists r, trend_row_of y t p (Some (x, p + w - 1)) = Ok r /\ ends_after y t p p0 w r /\ tr_t r = x /\ tr_label r = np_sign x.
Proof.
  intros Ev Hw Hl. unfold event_at in Ev. cbn [trend_row_of]. destruct (get_lt y (p + w - 1)) as ([te pe] & -> & Hte); [lia|]. cbn [bind].
  unfold get at 1. rewrite Ev. cbn [bind]. eexists. split; [reflexivity|]. split; [|split; reflexivity].
  split; [reflexivity|]. exists te, pe. split; auto. cbn [tr_end tr_return fst snd]. split; auto.
  intros Hp0. unfold esub, ediv. cbn [aeqb Arith_R a0]. destruct (Req_EM_T p0 0); [contradiction|]. reflexivity.
Qed.

(** A step of zero. *)
Lemma c112_zero inv junk cfg events y : t_step cfg = 0 -> increasingZ (map fst y) -> incl (events_of events y) (map fst y) ->
  ((exists t, In t (events_of events y) /\ enough_bars cfg y t) -> snd (transform inv junk cfg events y) = Err ValueError) /\
  ((forall t, In t (events_of events y) -> ~ enough_bars cfg y t) ->
     exists rows, snd (transform inv junk cfg events y) = Ok rows /\ Forall2 empty_row (events_of events y) rows).
Proof.
  intros Hs Hinc Hincl.
  destruct (transform_cases inv junk cfg events y empty_row (enough_bars cfg y) ValueError Hincl) as (H1 & H2 & H3).
  - intros n t Hin. destruct (event_bar y t Hin Hinc) as (p & p0 & Hp & Ev & Hl & Hu). unfold one_row. rewrite Hp, Hs. unfold scan_index.
    assert (Hlen : length (firstn (t_window cfg) (skipn p (map snd y))) = Nat.min (t_window cfg) (length y - p)) by now rewrite firstn_length, skipn_length, map_length.
    destruct (Nat.eqb_spec (length (firstn (t_window cfg) (skipn p (map snd y)))) (t_window cfg)) as [E|E].
    + right. split; [reflexivity|]. exists p, p0. split; auto. lia.
    + left. cbn [bind]. destruct (empty_row_of y t p) as (r & -> & Hr). exists r. split; auto. split; auto.
      intros (k & q & Hk & Hle). apply Hu in Hk. destruct Hk as [-> _]. lia.
  - split; auto. intros Hall. destruct (H3 Hall) as [rows Hrows]. eauto.
Qed.

(** Minimum lengths of one bar. *)
Lemma one_bar inv x : inv_sound inv -> inv_raises inv -> window_t inv [x] = Err LinAlgError.
Proof.
  intros Hs Hr. unfold window_t, get_beta_and_beta_var. cbn [length mdot tr nc nr trend_design colvec Nat.eqb bind].
  destruct (inv _) as [N|e] eqn:E; [|apply Hr in E; [now subst|reflexivity]]. exfalso. apply Hs in E. destruct E as (_ & _ & _ & E & _).
  specialize (E 1 1). cbn [nr nc at_ tr trend_design rsumn delta Nat.eqb INR] in E. specialize (E ltac:(lia) ltac:(lia)).
  cbn in E. unfold delta in E. cbn in E. lra.
Qed.
Lemma scan_one inv junk ys s : inv_sound inv -> inv_raises inv -> 1 <= s -> 2 <= length ys -> scan_window inv junk ys 1 s = Err LinAlgError.
Proof.
  intros Hs Hr H1 Hl. unfold scan_window. destruct s as [|s]; [lia|]. unfold arange. cbn [bind].
  assert (Hn : (length ys - 1 + (S s - 1)) / S s <> 0).
  { intros E. apply Nat.div_small_iff in E; lia. }
  destruct ((length ys - 1 + (S s - 1)) / S s) as [|n]; [lia|]. cbn [seq map foldM]. replace (1 + 0 * S s) with 1 by lia.
  destruct ys as [|x ys]; [cbn in Hl; lia|]. cbn [firstn]. rewrite one_bar by assumption. reflexivity.
Qed.
Lemma c112_one inv junk cfg events y : inv_sound inv -> inv_raises inv -> t_min cfg = 1 -> 2 <= t_window cfg -> 1 <= t_step cfg ->
  increasingZ (map fst y) -> incl (events_of events y) (map fst y) ->
  ((exists t, In t (events_of events y) /\ enough_bars cfg y t) -> snd (transform inv junk cfg events y) = Err LinAlgError) /\
  ((forall t, In t (events_of events y) -> ~ enough_bars cfg y t) ->
     exists rows, snd (transform inv junk cfg events y) = Ok rows /\ Forall2 empty_row (events_of events y) rows).
Proof.
  intros Hso Hra Hm Hw Hs Hinc Hincl.
  destruct (transform_cases inv junk cfg events y empty_row (enough_bars cfg y) LinAlgError Hincl) as (H1 & H2 & H3).
  - intros n t Hin. destruct (event_bar y t Hin Hinc) as (p & p0 & Hp & Ev & Hl & Hu). unfold one_row. rewrite Hp, Hm. unfold scan_index.
    assert (Hlen : length (firstn (t_window cfg) (skipn p (map snd y))) = Nat.min (t_window cfg) (length y - p)) by now rewrite firstn_length, skipn_length, map_length.
    destruct (Nat.eqb_spec (length (firstn (t_window cfg) (skipn p (map snd y)))) (t_window cfg)) as [E|E].
    + right. rewrite scan_one; auto; [|lia]. split; [reflexivity|]. exists p, p0. split; auto. lia.
    + left. cbn [bind]. destruct (empty_row_of y t p) as (r & -> & Hr). exists r. split; auto. split; auto.
      intros (k & q & Hk & Hle). apply Hu in Hk. destruct Hk as [-> _]. lia.
  - split; auto. intros Hall. destruct (H3 Hall) as [rows Hrows]. eauto.
Qed.

(** Two bars always lie on a line, and leave no degree of freedom: 0 / 0. *)
Lemma rss_two y : rss 2 y = 0%R.
Proof. unfold rss, slope, sxx, mean. cbn. field. Qed.
Lemma two_bars inv a b : inv_sound inv -> inv_complete 2 inv -> window_t inv [a; b] = Ok NaN.
Proof.
  intros Hs Hc. destruct (ols_ok inv Hs Hc [a; b] ltac:(cbn; lia)) as (c & V & HO).
  destruct (ols_slope inv Hs [a; b] ltac:(cbn; lia) c V HO) as [Eb Es].
  destruct (ols_unfold inv Hs (trend_design (length [a; b])) (colvec [a; b]) c V eq_refl eq_refl HO) as (N & HN & _ & _ & _ & HV).
  rewrite Es in HV. unfold window_t. rewrite HO. cbn [bind]. rewrite HV. cbn [length]. rewrite rss_two. cbn [nr nc trend_design].
  rewrite Rminus_diag_eq by reflexivity. cbn [ediv aeqb Arith_R a0]. destruct (Req_EM_T 0 0) as [_|]; [|lra].
  unfold asign. cbn [altb Arith_R a0]. destruct (Rlt_dec 0 0); [lra|]. reflexivity.
Qed.

Section Step.
  Variable inv : mat -> result mat.
  Hypothesis Hs : inv_sound inv.
  Hypothesis Hc : inv_complete 2 inv.

  (** The windows of a series [ys] that are tried. *)
  Definition tried_in (ys : list R) (m s w : nat) : Prop := w < length ys /\ exists j, w = m + j * s.

  Lemma scan_zeros ys m s : 3 <= m < length ys -> 1 <= s ->
    let y := fun i => nth i ys 0%R in
    (forall w, tried_in ys m s w -> rss w y <> 0%R) ->
    exists i, scan_window inv (fun _ => Fin 0%R) ys m s = Ok (Fin (trend_t (m + i) y), i) /\ tried_in ys m s (m + i) /\
      (forall v, tried_in ys m s v -> (Rabs (trend_t v y) <= Rabs (trend_t (m + i) y))%R) /\
      (forall v, tried_in ys m s v -> v < m + i -> (Rabs (trend_t v y) < Rabs (trend_t (m + i) y))%R).
  Proof.
    intros Hm H1 y Hr. unfold scan_window. destruct (arange_In m (length ys) s H1) as (ws & -> & Hws). cbn [bind].
    set (n := length ys - m).
    destruct (fold_ok (fun w => window_t inv (firstn w ys)) m (fun w => Fin (trend_t w y)) ws (map (fun _ => Fin 0%R) (seq 0 n))) as (arr & E & Hl & Hn).
    { intros w Hw. apply Hws in Hw. rewrite map_length, seq_length. split.
      - destruct Hw as (Hw & j & ->). unfold n. lia.
      - rewrite window_firstn; auto; [|destruct Hw as (Hw & j & ->); lia]. fold y. destruct (Req_EM_T (rss w y) 0) as [E|]; auto. now apply Hr in E. }
    cbn beta in E. rewrite E. cbn [bind]. rewrite map_length, seq_length in Hl.
    set (v := fun i => if in_dec Nat.eq_dec (m + i) ws then trend_t (m + i) y else 0%R).
    assert (Ea : arr = map Fin (map v (seq 0 n))).
    { apply nth_error_list_eq. intros i. rewrite map_map, nth_error_map. destruct (Hn i) as [N1 N2]. unfold v.
      destruct (Nat.lt_ge_cases i n) as [Hi|Hi].
      - rewrite nth_error_seq' by auto. cbn [option_map Nat.add]. destruct (in_dec _ _ _) as [I|I]; [now apply N1|]. rewrite N2 by auto.
        rewrite nth_error_map, nth_error_seq' by auto. reflexivity.
      - rewrite (proj2 (nth_error_None arr i)) by lia. rewrite (proj2 (nth_error_None (seq 0 n) i)) by (rewrite seq_length; lia). reflexivity. }
    rewrite Ea, !map_map. rewrite (map_ext _ (fun i => Fin (Rabs (v i)))) by (intros; apply eabs_fin).
    rewrite <- (map_map (fun i => Rabs (v i)) Fin).
    destruct (np_argmax_fin (map (fun i => Rabs (v i)) (seq 0 n))) as (i & x & Ei & Hi & Hx).
    { unfold n. destruct (length ys - m) eqn:En; [lia|discriminate]. }
    rewrite Ei. cbn [bind].
    assert (Hil : i < n) by (rewrite <- (seq_length n 0), <- (map_length (fun i => Rabs (v i))); apply nth_error_Some; congruence).
    assert (Hv : forall k, k < n -> nth_error (map (fun i => Rabs (v i)) (seq 0 n)) k = Some (Rabs (v k))).
    { intros k Hk. rewrite nth_error_map, nth_error_seq' by lia. reflexivity. }
    rewrite Hv in Hi by auto. injection Hi as <-.
    assert (I0 : In (m + 0) ws) by (apply Hws; split; [lia|exists 0; lia]).
    assert (Ii : In (m + i) ws).
    { destruct (in_dec Nat.eq_dec (m + i) ws) as [I|I]; auto. exfalso. destruct i as [|i]; [contradiction|].
      destruct (Hx 0 (Rabs (v 0)) (Hv 0 ltac:(lia))) as [_ X]. specialize (X ltac:(lia)). unfold v at 2 in X.
      destruct (in_dec _ _ _); [contradiction|]. rewrite Rabs_R0 in X. pose proof (Rabs_pos (v 0)). lra. }
    assert (Ev : forall w, In w ws -> m <= w /\ w - m < n /\ v (w - m) = trend_t w y).
    { intros w Hw. pose proof Hw as Hw'. apply Hws in Hw'. destruct Hw' as (Hlt & j & Ej). split; [lia|]. split; [unfold n; lia|].
      unfold v. replace (m + (w - m)) with w by lia. destruct (in_dec _ _ _); [reflexivity|contradiction]. }
    assert (Evi : v i = trend_t (m + i) y) by (destruct (Ev _ Ii) as (_ & _ & X); replace (m + i - m) with i in X by lia; exact X).
    exists i. split.
    { unfold get. rewrite nth_error_map, nth_error_seq' by lia. cbn [option_map bind Nat.add]. now rewrite Evi. }
    split; [now apply Hws|]. rewrite <- Evi. split; intros w Hw.
    - apply Hws in Hw. destruct (Ev w Hw) as (_ & Hlt & <-). apply (Hx (w - m)). now apply Hv.
    - intros Hlt'. apply Hws in Hw. destruct (Ev w Hw) as (Hge & Hlt & <-). apply (Hx (w - m)); [now apply Hv|lia].
  Qed.

  (** With two bars as the minimum the first entry is no number, whatever the memory. *)
  Lemma scan_two junk ys s : 3 <= length ys -> 1 <= s ->
    let y := fun i => nth i ys 0%R in
    (forall w, tried_in ys 2 s w -> 3 <= w -> rss w y <> 0%R) -> scan_window inv junk ys 2 s = Ok (NaN, 0).
  Proof.
    intros Hm H1 y Hr. unfold scan_window. destruct (arange_In 2 (length ys) s H1) as (ws & -> & Hws). cbn [bind].
    set (n := length ys - 2).
    destruct (fold_ok (fun w => window_t inv (firstn w ys)) 2 (fun w => if Nat.eqb w 2 then NaN else Fin (trend_t w y)) ws (map junk (seq 0 n))) as (arr & E & Hl & Hn).
    { intros w Hw. apply Hws in Hw. rewrite map_length, seq_length. split.
      - destruct Hw as (Hw & j & ->). unfold n. lia.
      - destruct (Nat.eqb_spec w 2) as [->|N].
        + destruct ys as [|a [|b ys]]; cbn [length] in Hm; try lia. cbn [firstn]. now apply two_bars.
        + assert (Hw3 : 3 <= w) by (destruct Hw as (_ & j & ->); lia). rewrite window_firstn; auto; [|destruct Hw; lia]. fold y.
          destruct (Req_EM_T (rss w y) 0) as [E|]; auto. now apply Hr in E. }
    cbn beta in E. rewrite E. cbn [bind]. rewrite map_length, seq_length in Hl.
    assert (I0 : In (2 + 0) ws) by (apply Hws; split; [lia|exists 0; lia]).
    destruct (Hn 0) as [N0 _]. specialize (N0 I0). cbn in N0. destruct arr as [|x arr]; [discriminate|]. cbn in N0. injection N0 as ->.
    reflexivity.
  Qed.

  Lemma scan_line junk ys m s : 2 <= m < length ys -> 1 <= s ->
    let y := fun i => nth i ys 0%R in
    (exists w, tried_in ys m s w /\ 3 <= w /\ rss w y = 0%R) -> scan_window inv junk ys m s = Err ZeroDivisionError.
  Proof.
    intros Hm H1 y (w & Hw & H3 & E). unfold scan_window. destruct (arange_In m (length ys) s H1) as (ws & -> & Hws). cbn [bind].
    set (F := fun w => window_t inv (firstn w ys)).
    assert (E' : foldM (fun arr w => do t <- F w ;; Ok (set_at arr (w - m) t)) (map junk (seq 0 (length ys - m))) ws = Err ZeroDivisionError).
    { apply fold_err.
      - intros v Hv. apply Hws in Hv. unfold F. destruct (Nat.eq_dec v 2) as [->|N].
        + right. exists NaN. destruct ys as [|a [|b ys']]; cbn [length] in Hm; try lia. cbn [firstn]. now apply two_bars.
        + rewrite window_firstn; auto; [|destruct Hv as (Hv & j & ->); lia]. destruct (Req_EM_T _ 0); [now left|right; eauto].
      - exists w. split; [now apply Hws|]. unfold F. rewrite window_firstn; auto; [|destruct Hw; lia]. fold y. destruct (Req_EM_T (rss w y) 0); [reflexivity|contradiction]. }
    unfold F in E'. rewrite E'. reflexivity.
  Qed.

  Lemma line_dec ys m s : 1 <= s -> let y := fun i => nth i ys 0%R in
    (forall w, tried_in ys m s w -> 3 <= w -> rss w y <> 0%R) \/ (exists w, tried_in ys m s w /\ 3 <= w /\ rss w y = 0%R).
  Proof.
    intros H1 y. destruct (arange_In m (length ys) s H1) as (ws & _ & Hws).
    assert (forall l, (forall w, In w l -> 3 <= w -> rss w y <> 0%R) \/ exists w, In w l /\ 3 <= w /\ rss w y = 0%R) as H.
    { induction l as [|x l [IH|(w & Hw & IH)]]; [left; intros ? []| |right; exists w; split; [now right|auto]].
      destruct (le_lt_dec 3 x) as [L|L]; [destruct (Req_EM_T (rss x y) 0) as [E|E]|].
      - right. exists x. split; [now left|auto].
      - left. intros w [<-|Hw]; auto.
      - left. intros w [<-|Hw] L'; [lia|auto]. }
    destruct (H ws) as [A|(w & Hw & A)]; [left; intros w Hw; apply A; now apply Hws|right; exists w; split; [now apply Hws|auto]].
  Qed.

  Variable cfg : trend_cfg.
  Hypothesis Hstep : 1 <= t_step cfg.
  Notation m := (t_min cfg).
  Notation L := (t_window cfg).

  (** The bars looked at from bar [k] on. *)
  Definition sub (y : list (Z * R)) (k : nat) : list R := firstn L (skipn k (map snd y)).
  Lemma sub_len y k : k + L <= length y -> length (sub y k) = L.
  Proof. intros H. unfold sub. rewrite firstn_length, skipn_length, map_length. lia. Qed.
  Lemma sub_short y k : k < length y -> length y < k + L -> length (sub y k) <> L.
  Proof. intros Hk H. unfold sub. rewrite firstn_length, skipn_length, map_length. lia. Qed.
  Lemma sub_nth y k i : i < L -> nth i (sub y k) 0%R = price y k i.
  Proof. intros Hi. unfold sub, price. rewrite nth_firstn by auto. apply nth_skipn. Qed.
  Lemma sub_rss y k w : w <= L -> rss w (fun i => nth i (sub y k) 0%R) = rss w (price y k).
  Proof. intros Hw. apply rss_ext. intros i Hi. apply sub_nth. lia. Qed.
  Lemma sub_t y k w : w <= L -> trend_t w (fun i => nth i (sub y k) 0%R) = t_of y k w.
  Proof. intros Hw. apply trend_t_ext. intros i Hi. apply sub_nth. lia. Qed.
  Lemma sub_tried y k w : k + L <= length y -> tried_in (sub y k) m (t_step cfg) w <-> tried cfg w.
  Proof. intros H. unfold tried_in, tried. rewrite sub_len by auto. reflexivity. Qed.

  Lemma coarse_one y n t : 3 <= m < L -> increasingZ (map fst y) -> In t (map fst y) ->
    (exists r, one_row inv cfg zeros y (n, t) = Ok r /\ coarse_row cfg y t r /\ ~ meets_line cfg y t) \/
    (one_row inv cfg zeros y (n, t) = Err ZeroDivisionError /\ meets_line cfg y t).
  Proof.
    intros Hm Hinc Hin. destruct (event_bar y t Hin Hinc) as (p & p0 & Hp & Ev & Hl & Hu). unfold one_row. rewrite Hp. unfold scan_index.
    fold (sub y p). destruct (Nat.lt_ge_cases (length y) (p + L)) as [Hlt|Hle].
    - rewrite (proj2 (Nat.eqb_neq _ _) (sub_short y p Hl Hlt)). left. cbn [bind]. destruct (empty_row_of y t p) as (r & -> & Hr).
      exists r. split; auto. split; [exists p, p0; auto|]. intros (k & q & w & Hk & Hkl & _). apply Hu in Hk. destruct Hk as [-> _]. lia.
    - rewrite (proj2 (Nat.eqb_eq _ _) (sub_len y p Hle)). pose proof (sub_len y p Hle) as Hsl.
      destruct (line_dec (sub y p) m (t_step cfg) Hstep) as [A|A].
      + left. destruct (scan_zeros (sub y p) m (t_step cfg) ltac:(lia) Hstep) as (i & Ei & It & Ib & Ic).
        { intros w Hw. apply A; auto. destruct Hw as (_ & j & ->). lia. }
        change (zeros n) with (fun _ : nat => Fin 0%R). rewrite Ei. cbn [bind]. apply sub_tried in It; auto.
        assert (HiL : m + i < L) by apply It. rewrite sub_t by lia. replace (p + i + m - 1) with (p + (m + i) - 1) by lia.
        destruct (full_row_of y t p p0 (m + i) (Fin (t_of y p (m + i))) Ev ltac:(lia) ltac:(lia)) as (r & -> & Hr & Ht & Hla).
        exists r. split; auto. split.
        * exists p, p0. split; auto. right. split; auto. exists (m + i). split; [|split; [auto|split; [auto|rewrite Hla; apply np_sign_sgn]]].
          split; [auto|]. split; intros v Hv; pose proof Hv as Hv'; destruct Hv' as (Hvl & _).
          { rewrite <- (sub_t y p v), <- (sub_t y p (m + i)) by lia. apply Ib. now apply sub_tried. }
          { intros X. rewrite <- (sub_t y p v), <- (sub_t y p (m + i)) by lia. apply Ic; auto. now apply sub_tried. }
        * intros (k & q & w & Hk & Hkl & Hw & H3 & Hst). apply Hu in Hk. destruct Hk as [-> _]. apply (A w); auto; [now apply sub_tried|].
          rewrite sub_rss by (destruct Hw; lia). exact Hst.
      + right. rewrite scan_line; auto; [|lia]. split; [reflexivity|]. destruct A as (w & Hw & H3 & E). apply sub_tried in Hw; auto.
        exists p, p0, w. repeat (split; auto). unfold straight. rewrite <- sub_rss by (destruct Hw; lia). exact E.
  Qed.

  Lemma pair_one junk y n t : m = 2 -> 3 <= L -> increasingZ (map fst y) -> In t (map fst y) ->
    (exists r, one_row inv cfg junk y (n, t) = Ok r /\ pair_row cfg y t r /\ ~ meets_line cfg y t) \/
    (one_row inv cfg junk y (n, t) = Err ZeroDivisionError /\ meets_line cfg y t).
  Proof.
    intros Hm HL Hinc Hin. destruct (event_bar y t Hin Hinc) as (p & p0 & Hp & Ev & Hl & Hu). unfold one_row. rewrite Hp. unfold scan_index.
    fold (sub y p). destruct (Nat.lt_ge_cases (length y) (p + L)) as [Hlt|Hle].
    - rewrite (proj2 (Nat.eqb_neq _ _) (sub_short y p Hl Hlt)). left. cbn [bind]. destruct (empty_row_of y t p) as (r & -> & Hr).
      exists r. split; auto. split; [exists p, p0; auto|]. intros (k & q & w & Hk & Hkl & _). apply Hu in Hk. destruct Hk as [-> _]. lia.
    - rewrite (proj2 (Nat.eqb_eq _ _) (sub_len y p Hle)). pose proof (sub_len y p Hle) as Hsl.
      destruct (line_dec (sub y p) m (t_step cfg) Hstep) as [A|A].
      + left. rewrite Hm in *. rewrite (scan_two (junk n) (sub y p) (t_step cfg) ltac:(lia) Hstep) by exact A. cbn [bind].
        replace (p + 0 + 2 - 1) with (p + 2 - 1) by lia.
        destruct (full_row_of y t p p0 2 NaN Ev ltac:(lia) ltac:(lia)) as (r & -> & Hr & Ht & Hla).
        exists r. split; auto. split.
        * exists p, p0. split; auto.
        * intros (k & q & w & Hk & Hkl & Hw & H3 & Hst). apply Hu in Hk. destruct Hk as [-> _]. apply (A w); auto.
          { rewrite <- Hm. now apply sub_tried. } rewrite sub_rss by (destruct Hw; lia). exact Hst.
      + right. rewrite scan_line; auto; [|lia]. split; [reflexivity|]. destruct A as (w & Hw & H3 & E). apply sub_tried in Hw; auto.
        exists p, p0, w. repeat (split; auto). unfold straight. rewrite <- sub_rss by (destruct Hw; lia). exact E.
  Qed.

  (** Whatever the memory holds. *)
  Lemma scan_any junk ys m' i t : 3 <= m' < length ys -> scan_window inv junk ys m' (t_step cfg) = Ok (t, i) ->
    m' + i < length ys /\ (tried_in ys m' (t_step cfg) (m' + i) -> t = Fin (trend_t (m' + i) (fun i => nth i ys 0%R))) /\
    (~ tried_in ys m' (t_step cfg) (m' + i) -> t = junk i).
  Proof.
    intros Hm H. destruct (line_dec ys m' (t_step cfg) Hstep) as [A|A]; [|rewrite scan_line in H; auto; [discriminate|lia]].
    unfold scan_window in H. destruct (arange_In m' (length ys) (t_step cfg) Hstep) as (ws & Ea & Hws). rewrite Ea in H. cbn [bind] in H.
    set (n := length ys - m') in *. set (y := fun i => nth i ys 0%R) in *.
    destruct (fold_ok (fun w => window_t inv (firstn w ys)) m' (fun w => Fin (trend_t w y)) ws (map junk (seq 0 n))) as (arr & E & Hl & Hn).
    { intros w Hw. apply Hws in Hw. rewrite map_length, seq_length. assert (Hw3 : m' <= w < length ys) by (destruct Hw as (Hw & j & ->); lia).
      split; [unfold n; lia|]. rewrite window_firstn; auto; [|lia]. fold y. destruct (Req_EM_T (rss w y) 0) as [E|]; auto. apply A in E; [easy|auto|lia]. }
    cbn beta in E. rewrite E in H. cbn [bind] in H. rewrite map_length, seq_length in Hl.
    destruct (np_argmax (map eabs arr)) as [i'|]; cbn [bind] in H; [|discriminate].
    unfold get in H. destruct (nth_error arr i') as [t'|] eqn:En; cbn [bind] in H; [|discriminate]. injection H as -> ->.
    assert (Hi : i < n) by (rewrite <- Hl; apply nth_error_Some; congruence).
    split; [unfold n in Hi; lia|]. destruct (Hn i) as [N1 N2]. split; intros Ht.
    - rewrite N1 in En by (now apply Hws). congruence.
    - rewrite N2 in En by (intros X; apply Ht; now apply Hws). rewrite nth_error_map, nth_error_seq' in En by auto. cbn in En. congruence.
  Qed.
  Lemma any_one junk y n t r : 3 <= m < L -> increasingZ (map fst y) -> one_row inv cfg junk y (n, t) = Ok r -> memory_row cfg (junk n) y t r.
  Proof.
    intros Hm Hinc H. unfold one_row in H. destruct (position t (map fst y)) as [q|] eqn:Hq; [|discriminate].
    assert (Hin : In t (map fst y)) by (apply position_Some in Hq; eapply nth_error_In; eauto).
    destruct (event_bar y t Hin Hinc) as (p & p0 & Hp & Ev & Hl & Hu). assert (q = p) by congruence. subst q. unfold scan_index in H.
    fold (sub y p) in H. exists p, p0. split; auto. destruct (Nat.lt_ge_cases (length y) (p + L)) as [Hlt|Hle].
    - rewrite (proj2 (Nat.eqb_neq _ _) (sub_short y p Hl Hlt)) in H. cbn [bind] in H. destruct (empty_row_of y t p) as (r' & E & Hr).
      left. split; auto. congruence.
    - rewrite (proj2 (Nat.eqb_eq _ _) (sub_len y p Hle)) in H. pose proof (sub_len y p Hle) as Hsl. right. split; auto.
      destruct (scan_window inv (junk n) (sub y p) m (t_step cfg)) as [[x i]|] eqn:Es; cbn [bind] in H; [|discriminate].
      apply scan_any in Es; [|lia]. destruct Es as (Hi & H1 & H2).
      replace (p + i + m - 1) with (p + (m + i) - 1) in H by lia.
      destruct (full_row_of y t p p0 (m + i) x Ev ltac:(lia) ltac:(lia)) as (r' & E & Hr & Ht & Hla). assert (r' = r) by congruence. subst r'.
      exists (m + i). split; [lia|]. split; auto. split; [now rewrite Ht|]. rewrite Ht. split; intros X.
      + rewrite H1 by (now apply sub_tried). now rewrite sub_t by lia.
      + rewrite H2 by (intros Y; apply X; now apply sub_tried in Y). f_equal. lia.
  Qed.
End Step.

Lemma c112_coarse inv cfg events y : inv_sound inv -> inv_complete 2 inv -> 3 <= t_min cfg < t_window cfg -> 1 <= t_step cfg ->
  increasingZ (map fst y) -> incl (events_of events y) (map fst y) ->
  (forall rows, snd (transform inv zeros cfg events y) = Ok rows -> Forall2 (coarse_row cfg y) (events_of events y) rows) /\
  ((exists t, In t (events_of events y) /\ meets_line cfg y t) -> snd (transform inv zeros cfg events y) = Err ZeroDivisionError) /\
  ((forall t, In t (events_of events y) -> ~ meets_line cfg y t) -> exists rows, snd (transform inv zeros cfg events y) = Ok rows).
Proof. intros Hs Hc Hm H1 Hinc Hincl. apply transform_cases; auto. intros n t Hin. now apply coarse_one. Qed.
Lemma c112_pair inv junk cfg events y : inv_sound inv -> inv_complete 2 inv -> t_min cfg = 2 -> 3 <= t_window cfg -> 1 <= t_step cfg ->
  increasingZ (map fst y) -> incl (events_of events y) (map fst y) ->
  (forall rows, snd (transform inv junk cfg events y) = Ok rows -> Forall2 (pair_row cfg y) (events_of events y) rows) /\
  ((exists t, In t (events_of events y) /\ meets_line cfg y t) -> snd (transform inv junk cfg events y) = Err ZeroDivisionError) /\
  ((forall t, In t (events_of events y) -> ~ meets_line cfg y t) -> exists rows, snd (transform inv junk cfg events y) = Ok rows).
Proof. intros Hs Hc Hm HL H1 Hinc Hincl. apply transform_cases; auto. intros n t Hin. now apply pair_one. Qed.
Lemma c112_memory inv junk cfg events y rows n t r : inv_sound inv -> inv_complete 2 inv -> 3 <= t_min cfg < t_window cfg -> 1 <= t_step cfg ->
  increasingZ (map fst y) -> snd (transform inv junk cfg events y) = Ok rows ->
  nth_error (events_of events y) n = Some t -> nth_error rows n = Some r -> memory_row cfg (junk n) y t r.
Proof.
  intros Hs Hc Hm H1 Hinc H. rewrite transform_unfold in H. change (ev_of events y) with (events_of events y) in H.
  destruct (forallb _ _); [|discriminate]. intros Ht Hr. apply (any_one inv Hs Hc cfg H1 junk y n t r Hm Hinc).
  change n with (0 + n) at 1. revert H n Ht Hr. generalize 0. revert rows. generalize (events_of events y) as ev.
  induction ev as [|t0 ev IH]; intros rows s H n Ht Hr; [now destruct n|]. cbn [length seq combine mapM] in H.
  destruct (one_row inv cfg junk y (s, t0)) as [r0|] eqn:E; cbn [bind] in H; [|discriminate].
  destruct (mapM _ _) as [rs|] eqn:Em; cbn [bind] in H; [|discriminate]. injection H as <-.
  destruct n as [|n]; cbn in Ht, Hr.
  - injection Ht as <-. injection Hr as <-. now rewrite Nat.add_0_r.
  - replace (s + S n) with (S s + n) by lia. eapply IH; eauto.
Qed.
