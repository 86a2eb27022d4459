(** Proofs for the trend scanner: transform. *)
From Coq Require Import Reals Lra.
From Verif Require Import PreludeFacts Series Boot_Model Boot_Proofs Boot_Proofs2 Label_Model Label_Proofs2 DailyVol_Proofs OLS_Model OLS_Spec OLS_Proofs
  Trend_Model Trend_Spec Trend_Proofs Trend_Proofs2.
Local Open Scope nat_scope.

Lemma np_sign_sgn (x : R) : np_sign (Fin x) = Fin (sgn x).
Proof.
  unfold np_sign, sgn. cbn [esign asign altb Arith_R a0 a1 aopp]. unfold asign. cbn [altb Arith_R a0].
  destruct (Rlt_dec x 0), (Rlt_dec 0 x); reflexivity.
Qed.

Lemma nth_skipn {A} (d : A) k l i : nth i (skipn k l) d = nth (k + i) l d.
Proof. revert l. induction k as [|k IH]; intros l; [reflexivity|]. destruct l; cbn; [now destruct i|apply IH]. Qed.

Section T.
  Variable inv : mat -> result mat.
  Hypothesis Hs : inv_sound inv.
  Hypothesis Hc : inv_complete 2 inv.
  Variable cfg : trend_cfg.
  Hypothesis Hstep : t_step cfg = 1.
  Hypothesis Hmin : 3 <= t_min cfg < t_window cfg.
  Notation m := (t_min cfg).
  Notation L := (t_window cfg).

  Lemma sub_length {A} (ys : list A) k w : length (firstn w (skipn k ys)) = Nat.min w (length ys - k).
  Proof. now rewrite firstn_length, skipn_length. Qed.

  Lemma scan_index_cases junk y k : k < length y ->
    (length y < k + L /\ scan_index inv junk (map snd y) k m L 1 = Ok None) \/
    (k + L <= length y /\ (forall w, m <= w < L -> ~ straight y k w) /\
     exists w, best_window y k m L w /\ scan_index inv junk (map snd y) k m L 1 = Ok (Some (Fin (t_of y k w), k + w - 1))) \/
    (k + L <= length y /\ (exists w, m <= w < L /\ straight y k w) /\
     scan_index inv junk (map snd y) k m L 1 = Err ZeroDivisionError).
  Proof.
    intros Hk. unfold scan_index. set (sub := firstn L (skipn k (map snd y))).
    assert (Hlen : length sub = Nat.min L (length y - k)) by (unfold sub; now rewrite sub_length, map_length).
    destruct (Nat.eqb_spec (length sub) L) as [E|E]; [right|left; split; [lia|reflexivity]].
    assert (Hle : k + L <= length y) by lia.
    assert (Hsub : forall i, i < L -> nth i sub 0%R = price y k i).
    { intros i Hi. unfold sub, price. rewrite nth_firstn by auto. apply nth_skipn. }
    assert (Hr : forall w, w <= L -> rss w (fun i => nth i sub 0%R) = rss w (price y k)).
    { intros w Hw. apply rss_ext. intros i Hi. apply Hsub. lia. }
    assert (Ht : forall w, w <= L -> trend_t w (fun i => nth i sub 0%R) = t_of y k w).
    { intros w Hw. apply trend_t_ext. intros i Hi. apply Hsub. lia. }
    assert (Hdec : (forall w, m <= w < L -> ~ straight y k w) \/ exists w, m <= w < L /\ straight y k w).
    { clear - Hmin. assert (forall n, (forall w, m <= w < m + n -> ~ straight y k w) \/ exists w, m <= w < m + n /\ straight y k w) as H.
      { induction n as [|n [IH|(w & Hw & IH)]]; [left; lia| |right; exists w; split; [lia|auto]].
        destruct (Req_EM_T (rss (m + n) (price y k)) 0) as [E|E].
        - right. exists (m + n). split; [lia|exact E].
        - left. intros w Hw Hst. destruct (Nat.eq_dec w (m + n)) as [->|]; [contradiction|]. apply (IH w); [lia|auto]. }
      specialize (H (L - m)). replace (m + (L - m)) with L in H by lia. exact H. }
    destruct Hdec as [Hd|Hd]; [left|right]; split; auto; split; auto.
    - destruct (scan_ok inv Hs Hc junk sub m ltac:(lia)) as (i & -> & Hi & Ha & Hb).
      { intros w Hw. rewrite Hr by lia. apply (Hd w). lia. }
      cbn [bind]. exists (m + i). rewrite Ht by lia. rewrite E in *. split.
      + split; [lia|]. split; intros v Hv.
        * rewrite <- (Ht v), <- (Ht (m + i)) by lia. apply Ha. lia.
        * rewrite <- (Ht v), <- (Ht (m + i)) by lia. apply Hb. lia.
      + do 3 f_equal. lia.
    - rewrite (scan_straight inv Hs Hc junk sub m) ; [reflexivity|lia|].
      destruct Hd as (w & Hw & Hst). exists w. split; [lia|]. rewrite Hr by lia. exact Hst.
  Qed.

  Definition ev_of (events : option (list Z)) (y : list (Z * R)) := match events with None => map fst y | Some ev => ev end.

  Definition one_row junk (y : list (Z * R)) (r : nat * Z) : result trend_row :=
    let '(n, t) := r in
    match position t (map fst y) with
    | None => Err KeyError
    | Some p => do s <- scan_index inv (junk n) (map snd y) p (t_min cfg) (t_window cfg) (t_step cfg) ;; trend_row_of y t p s
    end.

  Lemma one_row_cases junk y n t : In t (map fst y) -> increasingZ (map fst y) ->
    (exists r, one_row junk y (n, t) = Ok r /\ row_ok cfg y t r /\
       forall k p0, nth_error y k = Some (t, p0) -> k + L <= length y -> forall w, m <= w < L -> ~ straight y k w) \/
    (one_row junk y (n, t) = Err ZeroDivisionError /\
       exists k p0 w, nth_error y k = Some (t, p0) /\ k + L <= length y /\ m <= w < L /\ straight y k w).
  Proof.
    intros Hin Hinc. unfold one_row. destruct (position_In _ _ Hin) as [p Hp]. rewrite Hp. apply position_Some in Hp.
    rewrite nth_error_map in Hp. destruct (nth_error y p) as [[t' p0]|] eqn:Ep; [|discriminate]. cbn in Hp. injection Hp as ->.
    assert (Hpl : p < length y) by (apply nth_error_Some; congruence).
    assert (Huniq : forall k q, nth_error y k = Some (t, q) -> k = p).
    { intros k q Hk. apply (incZ_nth_inj _ k p t Hinc); rewrite nth_error_map; [now rewrite Hk|now rewrite Ep]. }
    rewrite Hstep. destruct (scan_index_cases (junk n) y p Hpl) as [(Hl & ->)|[(Hl & Hns & w & Hw & ->)|(Hl & (w & Hw & Hst) & ->)]]; cbn [bind].
    - left. eexists. split; [reflexivity|]. split.
      + exists p, p0. split; auto. split; auto. right. split; [lia|]. repeat split.
      + intros k q Hk Hle. apply Huniq in Hk. subst. lia.
    - left. cbn [trend_row_of]. pose proof Hw as [Hwb _].
      destruct (get_lt y (p + w - 1)) as ([te pe] & -> & Hte); [lia|]. cbn [bind].
      unfold get at 1. rewrite Ep. cbn [bind]. eexists. split; [reflexivity|]. split.
      + exists p, p0. split; auto. split; auto. left. split; [lia|]. exists w, te, pe. split; auto. split; auto.
        cbn [tr_end tr_t tr_label tr_return fst snd]. split; auto. split; auto. split; [apply np_sign_sgn|].
        intros Hp0. unfold esub, ediv. cbn [aeqb Arith_R a0]. destruct (Req_EM_T p0 0); [contradiction|]. reflexivity.
      + intros k q Hk Hle. apply Huniq in Hk. subst. auto.
    - right. split; auto. exists p, p0, w. auto.
  Qed.

  Lemma transform_unfold junk events y :
    snd (transform inv junk cfg events y) =
    if forallb (fun t => existsb (Z.eqb t) (map fst y)) (ev_of events y) then mapM (one_row junk y) (combine (seq 0 (length (ev_of events y))) (ev_of events y))
    else Err AssertionError.
  Proof.
    unfold transform, ev_of. destruct events as [ev|]; cbn.
    - destruct (forallb _ ev); reflexivity.
    - replace (forallb _ (map fst y)) with true; [reflexivity|]. symmetry. apply forallb_forall. intros x Hx.
      apply existsb_exists. exists x. split; auto. apply Z.eqb_refl.
  Qed.

  Lemma known_iff ev (index : list Z) : forallb (fun t => existsb (Z.eqb t) index) ev = true <-> incl ev index.
  Proof.
    rewrite forallb_forall. unfold incl. split; intros H x Hx; specialize (H x Hx).
    - apply existsb_exists in H as (z & Hz & E). apply Z.eqb_eq in E. now subst.
    - apply existsb_exists. exists x. split; auto. apply Z.eqb_refl.
  Qed.

  Lemma c32 junk events y rows : increasingZ (map fst y) ->
    snd (transform inv junk cfg events y) = Ok rows -> Forall2 (row_ok cfg y) (ev_of events y) rows.
  Proof.
    intros Hinc H. rewrite transform_unfold in H. destruct (forallb _ _) eqn:Ek; [|discriminate]. apply known_iff in Ek.
    revert H. generalize 0. revert rows Ek. generalize (ev_of events y) as ev.
    induction ev as [|t ev IH]; intros rows Ek s H; cbn [length seq combine mapM] in H.
    - injection H as <-. constructor.
    - destruct (one_row_cases junk y s t (Ek t (or_introl eq_refl)) Hinc) as [(r & E & Hr & _)|(E & _)]; rewrite E in H; cbn [bind] in H; [|discriminate].
      destruct (mapM _ _) as [rs|] eqn:Em; cbn [bind] in H; [|discriminate].
      assert (rows = r :: rs) as -> by congruence. constructor; auto. apply (IH rs) with (n := S s); auto. intros x Hx. apply Ek. now right.
  Qed.

  Lemma c32_defined junk events y : increasingZ (map fst y) -> incl (ev_of events y) (map fst y) ->
    ((exists rows, snd (transform inv junk cfg events y) = Ok rows) <->
     (forall t k p0 w, In t (ev_of events y) -> nth_error y k = Some (t, p0) -> k + L <= length y -> m <= w < L -> ~ straight y k w))
    /\ (forall e, snd (transform inv junk cfg events y) = Err e -> e = ZeroDivisionError).
  Proof.
    intros Hinc Hincl. rewrite transform_unfold. rewrite (proj2 (known_iff _ _)) by exact Hincl.
    revert Hincl. generalize 0. generalize (ev_of events y) as ev.
    induction ev as [|t ev IH]; intros s Hincl; cbn [length seq combine mapM].
    - split; [split; [intros _ ? ? ? ? []|eauto]|discriminate].
    - destruct (IH (S s)) as [[IH1 IH2] IH3]; [intros x Hx; apply Hincl; now right|].
      destruct (one_row_cases junk y s t (Hincl t (or_introl eq_refl)) Hinc) as [(r & E & _ & Hns)|(E & k & p0 & w & Hk & Hle & Hw & Hst)];
        rewrite E; cbn [bind].
      + destruct (mapM _ _) as [rs|e] eqn:Em; cbn [bind].
        * split; [|discriminate]. split; [|eauto]. intros _ t' k p0 w [<-|Ht]; [intros; eapply Hns; eauto|]. apply IH1; eauto.
        * split; [|intros e' He; injection He as <-; now apply IH3]. split; [intros [? [=]]|].
          intros Hall. destruct IH2 as [rs Hrs]; [|discriminate]. intros t' k p0 w Ht. apply Hall. now right.
      + split; [|intros e' He; now injection He as <-]. split; [intros [? [=]]|].
        intros Hall. exfalso. apply (Hall t k p0 w); auto. now left.
  Qed.

  (** Determinism *)
  Lemma c33 junk junk' events y : transform inv junk cfg events y = transform inv junk' cfg events y.
  Proof.
    assert (forall r, one_row junk y r = one_row junk' y r) as H.
    { intros [n t]. unfold one_row. destruct (position _ _); auto. rewrite Hstep. unfold scan_index. destruct (Nat.eqb _ _); auto.
      now rewrite !scan_window_1. }
    unfold transform. destruct (negb _); auto. f_equal.
    match goal with |- mapM ?f ?l = mapM ?g ?l => change f with (one_row junk y); change g with (one_row junk' y); generalize l end.
    induction l as [|r l IH]; auto. cbn. now rewrite H, IH.
  Qed.
End T.

(** Scaling *)
Lemma mean_affine n a b f : 1 <= n -> mean n (fun i => a * f i + b)%R = (a * mean n f + b)%R.
Proof. intros Hn. pose proof (INR_pos n Hn). unfold mean. rewrite rsumn_plus, rsumn_scal, rsumn_const. field. lra. Qed.
Lemma slope_affine n a b f : 1 <= n -> slope n (fun i => a * f i + b)%R = (a * slope n f)%R.
Proof.
  intros Hn. unfold slope. rewrite mean_affine by auto. unfold Rdiv. rewrite <- Rmult_assoc. f_equal. rewrite <- rsumn_scal.
  apply rsumn_ext. intros. lra.
Qed.
Lemma rss_affine n a b f : 1 <= n -> rss n (fun i => a * f i + b)%R = (a * a * rss n f)%R.
Proof.
  intros Hn. unfold rss. rewrite <- rsumn_scal. apply rsumn_ext. intros i _. cbv zeta. rewrite mean_affine, slope_affine by auto. ring.
Qed.
Lemma trend_t_affine n a b f : 3 <= n -> a <> 0%R -> trend_t n (fun i => a * f i + b)%R = (sgn a * trend_t n f)%R.
Proof.
  intros Hn Ha. unfold trend_t. rewrite slope_affine, rss_affine by lia.
  replace (a * a * rss n f / (INR n - 2) / sxx n)%R with (a * a * (rss n f / (INR n - 2) / sxx n))%R by (unfold Rdiv; ring).
  assert (E : sqrt (a * a * (rss n f / (INR n - 2) / sxx n)) = (Rabs a * sqrt (rss n f / (INR n - 2) / sxx n))%R).
  { rewrite sqrt_mult_alt by exact (Rle_0_sqr a). f_equal. exact (sqrt_Rsqr_abs a). }
  rewrite E. set (q := sqrt _). unfold Rdiv.
  assert (Hi : (a * / (Rabs a * q) = sgn a * / q)%R).
  { destruct (Req_EM_T q 0) as [->|Hq]; [rewrite Rmult_0_r, Rinv_0; ring|].
    rewrite Rinv_mult. unfold sgn, Rabs.
    destruct (Rlt_dec a 0), (Rcase_abs a), (Rlt_dec 0 a); try lra; field; lra. }
  transitivity (slope n f * (a * / (Rabs a * q)))%R; [ring|]. rewrite Hi. ring.
Qed.

Lemma rabs_sgn a x : a <> 0%R -> Rabs (sgn a * x) = Rabs x.
Proof.
  intros Ha. rewrite Rabs_mult. unfold sgn. destruct (Rlt_dec a 0); [|destruct (Rlt_dec 0 a)]; try lra.
  - rewrite (Rabs_left (-1)) by lra. lra.
  - rewrite (Rabs_right 1) by lra. lra.
Qed.
Lemma sgn_sgn a x : a <> 0%R -> sgn (sgn a * x) = (sgn a * sgn x)%R.
Proof.
  intros Ha. unfold sgn at 2 3. destruct (Rlt_dec a 0); [|destruct (Rlt_dec 0 a)]; try lra.
  - unfold sgn. destruct (Rlt_dec (-1 * x) 0), (Rlt_dec x 0), (Rlt_dec 0 (-1 * x)), (Rlt_dec 0 x); lra.
  - rewrite !Rmult_1_l. reflexivity.
Qed.

Lemma best_unique y k m L w w' : best_window y k m L w -> best_window y k m L w' -> w = w'.
Proof.
  intros (Hw & Ha & Hb) (Hw' & Ha' & Hb'). destruct (Nat.lt_trichotomy w w') as [H|[H|H]]; auto.
  - specialize (Hb' w ltac:(lia)). specialize (Ha w' Hw'). lra.
  - specialize (Hb w' ltac:(lia)). specialize (Ha' w Hw). lra.
Qed.

Section Affine.
  Variable inv : mat -> result mat.
  Hypothesis Hs : inv_sound inv.
  Hypothesis Hc : inv_complete 2 inv.
  Variable cfg : trend_cfg.
  Hypothesis Hstep : t_step cfg = 1.
  Hypothesis Hmin : 3 <= t_min cfg < t_window cfg.
  Variables a b : R.
  Hypothesis Ha : a <> 0%R.

  Lemma price_affine y k i : k + i < length y -> price (affine a b y) k i = (a * price y k i + b)%R.
  Proof.
    intros H. unfold price, affine. rewrite map_map. cbn [snd].
    rewrite <- (map_map snd (fun v => (a * v + b)%R)).
    rewrite (nth_indep _ 0%R (a * 0 + b)%R) by (now rewrite !map_length).
    now rewrite (map_nth (fun v => (a * v + b)%R)).
  Qed.
  Lemma affine_length y : length (affine a b y) = length y. Proof. apply map_length. Qed.
  Lemma affine_fst y : map fst (affine a b y) = map fst y.
  Proof. unfold affine. rewrite map_map. now apply map_ext. Qed.

  Lemma t_of_affine y k w : 3 <= w -> k + w <= length y -> t_of (affine a b y) k w = (sgn a * t_of y k w)%R.
  Proof.
    intros H3 H. unfold t_of. rewrite <- (trend_t_affine w a b) by auto. apply trend_t_ext. intros i Hi. apply price_affine. lia.
  Qed.
  Lemma straight_affine y k w : 1 <= w -> k + w <= length y -> straight (affine a b y) k w <-> straight y k w.
  Proof.
    intros H1 H. unfold straight. rewrite (rss_ext _ (price (affine a b y) k) (fun i => (a * price y k i + b)%R)) by (intros i Hi; apply price_affine; lia).
    rewrite rss_affine by auto. split; intros E.
    - apply Rmult_integral in E as [E|]; auto. apply Rmult_integral in E. tauto.
    - rewrite E. ring.
  Qed.
  Lemma best_affine y k w : k + t_window cfg <= length y -> best_window y k (t_min cfg) (t_window cfg) w ->
    best_window (affine a b y) k (t_min cfg) (t_window cfg) w.
  Proof.
    intros Hk (Hw & H1 & H2). split; auto. split; intros v Hv; rewrite !t_of_affine by lia; rewrite !rabs_sgn by auto; auto.
  Qed.

  Lemma one_row_affine junk y n t : In t (map fst y) ->
    match one_row inv cfg junk y (n, t), one_row inv cfg junk (affine a b y) (n, t) with
    | Ok r, Ok r' => row_times (sgn a) r r'
    | Err e, Err e' => e = e'
    | _, _ => False
    end.
  Proof.
    intros Hin. unfold one_row. rewrite affine_fst. destruct (position_In _ _ Hin) as [p Hp]. rewrite Hp. apply position_Some in Hp.
    rewrite nth_error_map in Hp. destruct (nth_error y p) as [[t' p0]|] eqn:Ep; [|discriminate]. cbn in Hp. injection Hp as ->.
    assert (Hpl : p < length y) by (apply nth_error_Some; congruence).
    assert (Hpl' : p < length (affine a b y)) by now rewrite affine_length.
    rewrite Hstep.
    destruct (scan_index_cases inv Hs Hc cfg Hstep Hmin (junk n) y p Hpl) as [(Hl & ->)|[(Hl & Hns & w & Hw & ->)|(Hl & (w & Hw & Hst) & ->)]];
    destruct (scan_index_cases inv Hs Hc cfg Hstep Hmin (junk n) (affine a b y) p Hpl') as [(Hl' & ->)|[(Hl' & Hns' & w' & Hw' & ->)|(Hl' & (w' & Hw' & Hst') & ->)]];
      cbn [bind]; rewrite ?affine_length in *; try lia; auto.
    - cbn. repeat split.
    - assert (w' = w) as -> by (eapply best_unique; [exact Hw'|now apply best_affine]).
      pose proof Hw as [Hwb _].
      cbn [trend_row_of]. destruct (get_lt y (p + w - 1)) as ([te pe] & -> & Hte); [lia|].
      destruct (get_lt y p Hpl) as (q0 & -> & _). cbn [bind].
      assert (get (affine a b y) (p + w - 1) = Ok (te, (a * pe + b)%R)) as -> by (unfold get, affine; now rewrite nth_error_map, Hte).
      destruct (get_lt (affine a b y) p ltac:(rewrite affine_length; lia)) as (q0' & -> & _). cbn [bind].
      unfold row_times. cbn [tr_start tr_end tr_t tr_label fst times]. split; auto. split; auto.
      rewrite t_of_affine by lia. split; auto. rewrite !np_sign_sgn. cbn [times]. now rewrite sgn_sgn.
    - exfalso. apply (Hns w'); [lia|]. apply (proj1 (straight_affine y p w' ltac:(lia) ltac:(lia))); exact Hst'.
    - exfalso. apply (Hns' w); [lia|]. apply (proj2 (straight_affine y p w ltac:(lia) ltac:(lia))); exact Hst.
  Qed.

  Lemma c35 junk events y :
    match snd (transform inv junk cfg events y), snd (transform inv junk cfg events (affine a b y)) with
    | Ok rows, Ok rows' => Forall2 (row_times (sgn a)) rows rows'
    | Err e, Err e' => e = e'
    | _, _ => False
    end.
  Proof.
    rewrite !transform_unfold.
    assert (Ee : ev_of events (affine a b y) = ev_of events y) by (unfold ev_of; now rewrite affine_fst). rewrite Ee, affine_fst.
    destruct (forallb _ _) eqn:Ek; auto. apply known_iff in Ek.
    revert Ek. generalize 0. generalize (ev_of events y) as ev.
    induction ev as [|t ev IH]; intros s Ek; cbn [length seq combine mapM]; [constructor|].
    pose proof (one_row_affine junk y s t (Ek t (or_introl eq_refl))) as H1.
    destruct (one_row inv cfg junk y (s, t)), (one_row inv cfg junk (affine a b y) (s, t)); cbn [bind]; try tauto.
    specialize (IH (S s) ltac:(intros x Hx; apply Ek; now right)).
    destruct (mapM (one_row inv cfg junk y) _), (mapM (one_row inv cfg junk (affine a b y)) _); cbn [bind]; try tauto. now constructor.
  Qed.
End Affine.

(** Memory *)
Section Memory.
  Variable inv : mat -> result mat.
  Variable junk : nat -> nat -> ext R.
  Variable cfg : trend_cfg.

  Lemma c34_given ev hist : after inv junk cfg (Some ev) hist = Some ev.
  Proof.
    unfold after. induction hist as [|y hist IH]; auto. cbn [fold_left].
    assert (fst (transform inv junk cfg (Some ev) y) = Some ev) as ->; auto. unfold transform. now destruct (negb _).
  Qed.
  Lemma c34_first y1 hist : after inv junk cfg None (y1 :: hist) = Some (map fst y1).
  Proof. unfold after. cbn [fold_left transform negb fst]. apply c34_given. Qed.
End Memory.
