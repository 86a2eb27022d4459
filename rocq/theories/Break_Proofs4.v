(** Proofs for the supremum augmented Dickey-Fuller test: runs. *)
From Coq Require Import Reals Lra String.
From Verif Require Import PreludeFacts Series Boot_Proofs DailyVol_Proofs Label_Proofs2 OLS_Model OLS_Spec OLS_Proofs OLS_Proofs2 Break_Model Break_Spec OLS_TStat
  OLS_Short Break_Proofs Break_Proofs2 Break_Proofs3.
Local Open Scope nat_scope.

Lemma get_X_y_defined ys model lags const : valid model lags ->
  ((exists r, get_X_y ys model lags const = Ok r) <->
   (is_martingale model = true -> model <> "sm_poly_1"%string -> Forall (fun v => (0 < v)%R) ys)).
Proof.
  intros Hv. unfold valid, is_standard, is_martingale in *. unfold get_X_y.
  destruct (String.eqb_spec model "no_trend") as [->|N1]; [split; [discriminate|destruct (standard_spec ys lags) as [[? ?] ?]; eauto]|].
  destruct (String.eqb_spec model "linear") as [->|N2]; [split; [discriminate|destruct (standard_spec ys lags) as [[? ?] ?]; eauto]|].
  destruct (String.eqb_spec model "quadratic") as [->|N3]; [split; [discriminate|destruct (standard_spec ys lags) as [[? ?] ?]; eauto]|].
  destruct (String.eqb_spec model "sm_poly_1") as [->|N4]; [split; [congruence|eauto]|].
  cbn [orb] in *. rewrite <- log_series_iff.
  assert (HH : forall (f : list R -> frame * list R * list nat), (exists r, (do y <- log_series ys ;; Ok (f y)) = Ok r) <-> exists y, log_series ys = Ok y).
  { intros f. destruct (log_series ys); cbn [bind]; split; intros [r Hr]; eauto; discriminate. }
  destruct (String.eqb_spec model "sm_poly_2") as [->|N5]; [rewrite HH; cbn [orb]; tauto|].
  destruct (String.eqb_spec model "sm_exp") as [->|N6]; [rewrite HH; cbn [orb]; tauto|].
  destruct (String.eqb_spec model "sm_power") as [->|N7]; [rewrite HH; cbn [orb]; tauto|].
  destruct Hv as [[? _]|?]; discriminate.
Qed.

Section Run.
  Variable inv : mat -> result mat.
  Hypothesis Hs : inv_sound inv.
  Variables (model : string) (lags m : nat) (const : bool) (phi : R).
  Hypothesis Hv : valid model lags.

  Lemma run_inv s out : sadf_run inv model lags m const phi s = Ok out ->
    exists X y pos sadf, xy_ok (map snd s) model lags const X y pos /\ m <= n_rows model lags (List.length s) /\
      mapM (fun index => get_sadf_at_t inv X y (index + 1) m model phi) (seq m (n_rows model lags (List.length s) - m)) = Ok sadf /\
      out = combine (skipn m (map (fun p => nth p (map fst s) 0%Z) pos)) sadf.
  Proof.
    intros H. unfold sadf_run in H. destruct (get_X_y _ _ _ _) as [[[X y] pos]|] eqn:E; cbn [bind] in H; [|discriminate].
    pose proof (get_X_y_ok _ _ _ _ _ _ _ Hv E) as Hxy. pose proof Hxy as (Hy & _). rewrite map_length in Hy. rewrite Hy in H.
    destruct (Nat.ltb_spec (n_rows model lags (List.length s)) m); [discriminate|]. cbn [raise_if bind] in H.
    destruct (mapM _ _) as [sadf|] eqn:Em; cbn [bind] in H; [|discriminate]. injection H as <-.
    exists X, y, pos, sadf. auto.
  Qed.

  (** Entry [q] of the output. *)
  Lemma run_nth s X y pos sadf q : xy_ok (map snd s) model lags const X y pos ->
    mapM (fun index => get_sadf_at_t inv X y (index + 1) m model phi) (seq m (n_rows model lags (List.length s) - m)) = Ok sadf ->
    m + q < n_rows model lags (List.length s) ->
    exists e, get_sadf_at_t inv X y (m + q + 1) m model phi = Ok e /\
      nth_error (combine (skipn m (map (fun p => nth p (map fst s) 0%Z) pos)) sadf) q = Some (nth (row_pos model lags (m + q)) (map fst s) 0%Z, e).
  Proof.
    intros (_ & -> & _) Em Hq. destruct (mapM_nth _ _ _ q (m + q) Em) as (e & He & E).
    { rewrite nth_error_seq' by lia. reflexivity. }
    exists e. split; auto. apply nth_error_combine; auto. rewrite nth_error_skipn, !nth_error_map.
    rewrite map_length. rewrite nth_error_seq' by lia. reflexivity.
  Qed.

  Lemma run_length s X y pos sadf : xy_ok (map snd s) model lags const X y pos ->
    mapM (fun index => get_sadf_at_t inv X y (index + 1) m model phi) (seq m (n_rows model lags (List.length s) - m)) = Ok sadf ->
    List.length (combine (skipn m (map (fun p => nth p (map fst s) 0%Z) pos)) sadf) = n_rows model lags (List.length s) - m.
  Proof.
    intros (_ & -> & _) Em. apply mapM_length in Em. rewrite seq_length in Em.
    rewrite combine_length, skipn_length, !map_length, seq_length, Em. lia.
  Qed.

  Definition window_stat (s : list (Z * R)) (stop start : nat) (u : R) : Prop :=
    exists t, t_stat (X_of model lags const (vals s) start stop) (Y_of model lags (vals s) start stop) t /\ u = code_stat model phi start t.

  Lemma c46 s out : n_cols model lags const < m -> sadf_run inv model lags m const phi s = Ok out ->
    let rows := n_rows model lags (List.length s) in
    m <= rows /\ List.length out = rows - m /\
    forall q, m + q < rows -> exists v,
      nth_error out q = Some (nth (row_pos model lags (m + q)) (map fst s) 0%Z, Fin v) /\
      largest_over_starts (window_stat s (m + q + 1)) m (m + q + 1) v.
  Proof.
    intros Hk H. destruct (run_inv s out H) as (X & y & pos & sadf & Hxy & Hm & Em & ->). cbv zeta. split; auto.
    split; [now apply (run_length s X y)|]. intros q Hq.
    destruct (run_nth s X y pos sadf q Hxy Em Hq) as (e & He & Hn).
    destruct (sadf_at_ok inv Hs model lags m const phi (map snd s) Hv Hk X y pos Hxy (m + q + 1) e) as (v & -> & Hl & _); auto.
    { rewrite map_length. lia. }
    exists v. split; auto.
  Qed.

  Lemma c46_defined s : n_cols model lags const < m -> inv_complete (n_cols model lags const) inv ->
    let rows := n_rows model lags (List.length s) in
    (exists out, sadf_run inv model lags m const phi s = Ok out) <->
    (m <= rows /\
     (is_martingale model = true -> model <> "sm_poly_1"%string -> Forall (fun v => (0 < v)%R) (map snd s)) /\
     forall start stop, start + m <= stop -> m < stop <= rows ->
       ~ degenerate (X_of model lags const (vals s) start stop) (Y_of model lags (vals s) start stop)).
  Proof.
    intros Hk Hcpl rows. split.
    - intros [out H]. destruct (run_inv s out H) as (X & y & pos & sadf & Hxy & Hm & Em & ->). split; auto. split.
      + apply (proj1 (get_X_y_defined (map snd s) model lags const Hv)). unfold sadf_run in H. destruct (get_X_y _ _ _ _) eqn:E; [eauto|discriminate].
      + intros start stop Hss Hst. unfold rows in Hst.
        destruct (run_nth s X y pos sadf (stop - 1 - m) Hxy Em ltac:(lia)) as (e & He & _).
        replace (m + (stop - 1 - m) + 1) with stop in He by lia.
        destruct (sadf_at_ok inv Hs model lags m const phi (map snd s) Hv Hk X y pos Hxy stop e) as (v & _ & _ & Hd); auto.
        { rewrite map_length. lia. }
    - intros (Hm & Hp & Hd). destruct (proj2 (get_X_y_defined (map snd s) model lags const Hv) Hp) as [[[X y] pos] E].
      pose proof (get_X_y_ok _ _ _ _ _ _ _ Hv E) as Hxy. pose proof Hxy as (Hy & _). rewrite map_length in Hy. fold rows in Hy.
      unfold sadf_run. rewrite E. cbn [bind]. rewrite Hy. destruct (Nat.ltb_spec rows m); [lia|]. cbn [raise_if bind].
      assert (exists sadf, mapM (fun index => get_sadf_at_t inv X y (index + 1) m model phi) (seq m (rows - m)) = Ok sadf) as [sadf ->]; [|cbn [bind]; eauto].
      assert (Hall : forall i, In i (seq m (rows - m)) -> m <= i < rows) by (intros i Hi; apply in_seq in Hi; lia).
      revert Hall. generalize (seq m (rows - m)) as l. induction l as [|a l IH]; intros Hall; [now exists []|]. cbn [mapM].
      destruct (sadf_at_defined inv Hs model lags m const phi (map snd s) Hv Hk X y pos Hxy (a + 1) Hcpl) as [e ->].
      { specialize (Hall a (or_introl eq_refl)). rewrite map_length. fold rows. lia. }
      { intros start Hst. specialize (Hall a (or_introl eq_refl)). apply (Hd start (a + 1)); lia. }
      cbn [bind]. destruct IH as [r ->]; [intros i Hi; apply Hall; now right|]. cbn [bind]. eauto.
  Qed.

  (** ** No look-ahead *)
  Lemma window_prefix s k start stop : stop <= n_rows model lags k -> k <= List.length s ->
    X_of model lags const (vals (firstn k s)) start stop = X_of model lags const (vals (firstn k s)) start stop /\
    meq (X_of model lags const (vals (firstn k s)) start stop) (X_of model lags const (vals s) start stop) /\
    meq (Y_of model lags (vals (firstn k s)) start stop) (Y_of model lags (vals s) start stop).
  Proof.
    intros Hst Hk. split; auto.
    assert (Hx : forall i, i < k -> vals (firstn k s) i = vals s i).
    { intros i Hi. unfold vals. rewrite <- firstn_map. now apply nth_firstn_lt. }
    split; (split; [reflexivity|split; [reflexivity|]]); cbn [X_of Y_of nr nc at_]; intros i j Hi Hj.
    - f_equal. unfold regressors. assert (Hp : row_pos model lags (start + i) < k /\ is_standard model = true \/ is_standard model = false).
      { destruct (is_standard model) eqn:Es; auto. left. split; auto. unfold n_rows, row_pos in *. rewrite Es in *. lia. }
      unfold is_standard in Hp.
      assert (Har : String.eqb model "no_trend" || String.eqb model "linear" || String.eqb model "quadratic" = true ->
        vals (firstn k s) (row_pos model lags (start + i) - 1) :: map (fun l => Rminus (vals (firstn k s) (row_pos model lags (start + i) - l)) (vals (firstn k s) (row_pos model lags (start + i) - l - 1))) (seq 1 lags) =
        vals s (row_pos model lags (start + i) - 1) :: map (fun l => Rminus (vals s (row_pos model lags (start + i) - l)) (vals s (row_pos model lags (start + i) - l - 1))) (seq 1 lags)).
      { intros Es. destruct Hp as [[Hp _]|Hp]; [|congruence]. f_equal; [apply Hx; lia|]. apply map_ext. intros l. f_equal; apply Hx; lia. }
      destruct (String.eqb model "no_trend"); [cbv zeta; now rewrite Har|].
      destruct (String.eqb model "linear"); [cbv zeta; now rewrite Har|].
      destruct (String.eqb model "quadratic"); [cbv zeta; now rewrite Har|]. reflexivity.
    - assert (row_pos model lags (start + i) < k).
      { unfold n_rows, row_pos in *. destruct (is_standard model); lia. }
      unfold response. rewrite !Hx by lia. reflexivity.
  Qed.

  Lemma n_rows_mono k n : k <= n -> n_rows model lags k <= n_rows model lags n.
  Proof. unfold n_rows. destruct (is_standard model); lia. Qed.

  Lemma largest_unique (st st' : nat -> R -> Prop) stop (v v' : R) : (forall start u u', start + m <= stop -> st start u -> st' start u' -> u = u') ->
    largest_over_starts st m stop v -> largest_over_starts st' m stop v' -> v = v'.
  Proof.
    intros He [(a & Ha & Hva) Hmax] [(b & Hb & Hvb) Hmax'].
    destruct (Hmax b Hb) as (u & Hu & Hle). destruct (Hmax' a Ha) as (u' & Hu' & Hle').
    pose proof (He a v u' Ha Hva Hu'). pose proof (He b u v' Hb Hu Hvb). lra.
  Qed.

  Lemma sadf_causal s k out : n_cols model lags const < m -> inv_complete (n_cols model lags const) inv ->
    sadf_run inv model lags m const phi s = Ok out -> k <= List.length s -> m <= n_rows model lags k ->
    exists out', sadf_run inv model lags m const phi (firstn k s) = Ok out' /\ out' = firstn (n_rows model lags k - m) out.
  Proof.
    intros Hk Hcpl H Hks Hmk. pose proof (n_rows_mono k (List.length s) Hks) as Hmono.
    assert (Hlen : List.length (firstn k s) = k) by (rewrite firstn_length; lia).
    destruct (proj1 (c46_defined s Hk Hcpl) (ex_intro _ out H)) as (Hm & Hp & Hd).
    assert (exists out', sadf_run inv model lags m const phi (firstn k s) = Ok out') as [out' H'].
    { apply (proj2 (c46_defined (firstn k s) Hk Hcpl)). rewrite Hlen. split; auto. split.
      - intros A B. specialize (Hp A B). rewrite <- firstn_map. apply Forall_forall. intros v Hin. rewrite Forall_forall in Hp. apply Hp.
        rewrite <- (firstn_skipn k). apply in_or_app. now left.
      - intros start stop Hss Hst Hdeg. destruct (window_prefix s k start stop ltac:(lia) Hks) as (_ & MX & MY).
        apply (Hd start stop Hss ltac:(lia)). exact (degenerate_meq _ _ _ _ MX MY eq_refl eq_refl Hdeg). }
    exists out'. split; auto.
    destruct (c46 s out Hk H) as (_ & HL & Hn). destruct (c46 (firstn k s) out' Hk H') as (_ & HL' & Hn'). rewrite Hlen in HL', Hn'.
    assert (forall q, nth_error out' q = nth_error (firstn (n_rows model lags k - m) out) q) as Heq.
    { intros q. destruct (Nat.lt_ge_cases q (n_rows model lags k - m)) as [Hq|Hq].
      - destruct (Hn' q ltac:(lia)) as (v' & -> & Hl'). destruct (Hn q ltac:(lia)) as (v & Ev & Hl).
        assert (nth_error (firstn (n_rows model lags k - m) out) q = nth_error out q) as ->.
        { clear - Hq. revert q Hq. generalize (n_rows model lags k - m) as n. induction out as [|x l IH]; intros [|n] [|q] Hq; try lia; cbn; auto. apply IH. lia. }
        rewrite Ev. f_equal. f_equal.
        + rewrite <- firstn_map. apply nth_firstn_lt. unfold n_rows, row_pos in *. destruct (is_standard model); lia.
        + f_equal. revert Hl' Hl. apply largest_unique. intros start u u' Hst (t & Ht & ->) (t' & Ht' & ->). f_equal.
          destruct (window_prefix s k start (m + q + 1) ltac:(lia) Hks) as (_ & MX & MY).
          pose proof (t_stat_meq _ _ _ _ _ MX MY eq_refl eq_refl Ht) as Ht2. eapply t_stat_unique; [|exact Ht2|exact Ht'].
          cbn [X_of nc]. pose proof (n_cols_pos model lags const). lia.
      - rewrite (proj2 (nth_error_None out' q)), (proj2 (nth_error_None _ q)); auto; [rewrite firstn_length|]; lia. }
    clear - Heq. revert Heq. generalize (firstn (n_rows model lags k - m) out) as l2. induction out' as [|x l IH]; intros [|x2 l2] Heq; auto.
    - specialize (Heq 0). discriminate.
    - specialize (Heq 0). discriminate.
    - pose proof (Heq 0) as E0. cbn in E0. injection E0 as ->. f_equal. apply IH. intros q. exact (Heq (S q)).
  Qed.

  (** ** Windows without residual degrees of freedom *)
  Lemma adf_at_square X y stop start : List.length X = stop - start -> 0 < stop - start -> forall e, adf_at inv X y stop model phi start = Ok e -> e = NaN.
  Proof.
    intros Hsq Hpos e H. unfold adf_at in H. destruct (get_beta_and_beta_var _ _ _) as [[b V]|] eqn:E; cbn [bind] in H; [|discriminate].
    destruct (ols_unfold inv Hs (rows_of X start stop) (y_of y start stop) b V eq_refl eq_refl E) as (N & HN & _ & _ & _ & HV).
    pose proof (ols_normal inv Hs (rows_of X start stop) (y_of y start stop) b V eq_refl eq_refl E) as Ho.
    rewrite (square_exact _ N HN (y_of y start stop) _ (eq_sym Hsq) Ho) in HV.
    assert (EV : V 0 0 = NaN).
    { rewrite HV. cbn [rows_of nr nc]. rewrite Hsq, Rminus_diag_eq by auto.
      assert (ediv (Fin 0%R) (Fin 0%R) = NaN) as ->; [|reflexivity].
      unfold ediv, asign. cbn [aeqb altb Arith_R a0]. destruct (Req_EM_T 0 0); [|lra]. destruct (Rlt_dec 0 0); [lra|reflexivity]. }
    rewrite EV in H. cbn [pow_half esqrt py_div bind ediv] in H. 
    destruct (String.eqb (substring 0 2 model) "sm"); [|congruence].
    unfold py_div in H. destruct (aeqb _ _); [discriminate|]. cbn [eabs ediv] in H. congruence.
  Qed.
  Lemma adf_at_short X y stop start : stop - start < List.length X -> forall e, adf_at inv X y stop model phi start <> Ok e.
  Proof.
    intros Hsq e H. unfold adf_at in H. destruct (get_beta_and_beta_var _ _ _) as [[b V]|] eqn:E; cbn [bind] in H; [|discriminate].
    destruct (ols_unfold inv Hs (rows_of X start stop) (y_of y start stop) b V eq_refl eq_refl E) as (N & HN & _).
    pose proof (gram_rows _ N HN) as Hle. cbn [rows_of nr nc] in Hle. lia.
  Qed.
  Lemma max_loop_nan l : forall x, In NaN l -> max_loop x l = NaN.
  Proof.
    induction l as [|a l IH]; intros x H; [easy|]. destruct H as [->|H]; cbn [max_loop is_nan]; auto. destruct (is_nan a); auto.
  Qed.
  Lemma np_max_nan l e : In NaN l -> np_max l = Ok e -> e = NaN.
  Proof.
    destruct l as [|x l]; [easy|]. cbn [np_max]. intros [->|H] [= <-]; [reflexivity|]. destruct (is_nan x); auto. now rewrite max_loop_nan.
  Qed.

  Lemma c46_short s out : 0 < m -> m <= n_cols model lags const -> sadf_run inv model lags m const phi s = Ok out ->
    Forall (fun p => snd p = NaN) out /\ (m < n_cols model lags const -> out = []).
  Proof.
    intros Hm0 Hmc H. destruct (run_inv s out H) as (X & y & pos & sadf & Hxy & Hm & Em & Eo).
    pose proof Hxy as (_ & _ & HX & _).
    pose proof (run_length s X y pos sadf Hxy Em) as HL. rewrite <- Eo in HL.
    assert (Hall : forall q, q < List.length out -> exists t, nth_error out q = Some (t, NaN) /\ m = n_cols model lags const).
    { intros q Hq. destruct (run_nth s X y pos sadf q Hxy Em ltac:(lia)) as (e & He & Hn). rewrite <- Eo in Hn.
      unfold get_sadf_at_t in He. destruct (mapM (adf_at inv X y (m + q + 1) model phi) _) as [adf|] eqn:E; cbn [bind] in He; [|discriminate].
      destruct (mapM_nth _ _ _ (q + 1) (q + 1) E) as (e' & Hn' & E').
      { rewrite nth_error_seq' by lia. reflexivity. }
      destruct (Nat.eq_dec m (n_cols model lags const)) as [Em'|Hne].
      - apply adf_at_square in E'; [|lia|lia]. subst e'. apply nth_error_In in Hn'. apply (np_max_nan _ _ Hn') in He. subst e. eauto.
      - exfalso. apply (adf_at_short X y (m + q + 1) (q + 1) ltac:(lia) _ E'). }
    split.
    - apply Forall_forall. intros p Hp. apply In_nth_error in Hp as [q Hq]. destruct (Hall q) as (t & E & _).
      { apply nth_error_Some. congruence. } rewrite E in Hq. injection Hq as <-. reflexivity.
    - intros Hlt. destruct out as [|p out]; auto. destruct (Hall 0 ltac:(cbn; lia)) as (_ & _ & ?). lia.
  Qed.
End Run.

(** ** Standard models without lags *)
Lemma c46_no_lags inv model m const phi s : is_standard model = true -> 0 < m -> sadf_run inv model 0 m const phi s = Err ValueError.
Proof.
  intros Hst Hm. unfold sadf_run, get_X_y. unfold is_standard in Hst.
  destruct (String.eqb model "no_trend"); [cbn; destruct m; [lia|reflexivity]|].
  destruct (String.eqb model "linear"); [cbn; destruct m; [lia|reflexivity]|].
  destruct (String.eqb model "quadratic"); [cbn; destruct m; [lia|reflexivity]|]. discriminate.
Qed.
