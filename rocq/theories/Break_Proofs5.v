(** Proofs for the penalty of the martingale models and for the Chow-type Dickey-Fuller test. *)
From Coq Require Import Reals Lra String.
From Verif Require Import PreludeFacts Series Boot_Proofs DailyVol_Proofs Label_Proofs2 OLS_Model OLS_Spec OLS_Proofs OLS_Proofs2 Break_Model Break_Spec OLS_TStat
  OLS_Short Break_Proofs Break_Proofs2 Break_Proofs3 Break_Proofs4 Trend_Spec Trend_Proofs4.
Local Open Scope nat_scope.

Lemma n_cols_martingale model lags const : is_martingale model = true -> n_cols model lags const <= 3.
Proof.
  unfold is_martingale, n_cols, regressors. intros H.
  apply orb_prop in H as [H|H]; [apply orb_prop in H as [H|H]; [apply orb_prop in H as [H|H]|]|]; apply String.eqb_eq in H as ->; cbn; lia.
Qed.

Lemma c47 inv model lags m const phi s out time v w k : inv_sound inv -> is_martingale model = true -> (0 < phi)%R -> 4 <= m -> k <= 1 ->
  sadf_run inv model lags m const phi s = Ok out -> nth_error out 0 = Some (time, Fin v) -> (0 < v)%R ->
  largest_over_starts (fun start u => exists t,
    t_stat (X_of model lags const (vals s) start (m + 1)) (Y_of model lags (vals s) start (m + 1)) t /\
    u = documented_stat phi k (m + 1) start t) m (m + 1) w ->
  (w < v)%R.
Proof.
  intros Hs Hmart Hphi Hm Hk H Hn Hv [(a & Ha & t & Ht & Hw) _].
  pose proof (n_cols_martingale model lags const Hmart) as Hc.
  destruct (c46 inv Hs model lags m const phi (or_intror Hmart) s out ltac:(lia) H) as (_ & HL & Hall).
  assert (0 < List.length out) by (apply nth_error_Some; congruence).
  destruct (Hall 0 ltac:(lia)) as (v' & E & _ & Hmax). rewrite Hn in E. injection E as _ <-.
  replace (m + 0 + 1) with (m + 1) in Hmax by lia.
  destruct (Hmax a Ha) as (u & (t' & Ht' & Hu) & Hle).
  assert (t' = t) as ->.
  { eapply t_stat_unique; [|exact Ht'|exact Ht]. cbn [X_of nc]. pose proof (n_cols_pos model lags const). lia. }
  unfold code_stat in Hu. rewrite Hmart in Hu. subst w u. unfold documented_stat.
  assert (HA : (0 < Rpower (INR (a + 1)) phi)%R) by apply exp_pos.
  assert (HB : (Rpower (INR (a + 1)) phi < Rpower (INR (m + 1 - a - k)) phi)%R).
  { apply Rlt_Rpower_l; auto. split; [apply lt_0_INR; lia|apply lt_INR; lia]. }
  destruct (Rle_lt_or_eq_dec 0 (Rabs t) (Rabs_pos t)) as [Hp|Hz].
  - apply Rlt_le_trans with (Rabs t / Rpower (INR (a + 1)) phi)%R; auto.
    unfold Rdiv. apply Rmult_lt_compat_l; auto. apply Rinv_lt_contravar; auto. now apply Rmult_lt_0_compat; [|lra].
  - rewrite <- Hz. unfold Rdiv. rewrite Rmult_0_l. exact Hv.
Qed.

(** Without penalty the two agree. *)
Lemma c47_zero model start stop k t : is_martingale model = true -> code_stat model 0 start t = documented_stat 0 k stop start t.
Proof. intros H. unfold code_stat, documented_stat, Rpower. rewrite H, !Rmult_0_l. reflexivity. Qed.

(** ** Chow-type Dickey-Fuller *)
Section Chow.
  Variable inv : mat -> result mat.
  Hypothesis Hs : inv_sound inv.

  Lemma dfc_at_ok s t e : 3 <= List.length s -> dfc_at inv (map snd s) t = Ok e ->
    (0 < chow_sxx s t)%R /\
    ((0 < chow_sse s t)%R -> e = Fin (chow_t s t)) /\
    (chow_sse s t = 0%R -> e = signed_inf (asign (chow_slope s t))).
  Proof.
    intros Hlen H. unfold dfc_at in H. rewrite map_length in H.
    set (X := {| nr := List.length s - 1; nc := 1; at_ := fun i _ => (nth i (map snd s) 0 * (if Nat.ltb i t then 0 else 1))%R |}) in *.
    set (y := {| nr := List.length s - 1; nc := 1; at_ := fun i _ => (nth (i + 1) (map snd s) 0 - nth i (map snd s) 0)%R |}) in *.
    destruct (get_beta_and_beta_var inv X y) as [[b V]|] eqn:E; cbn [bind] in H; [|discriminate]. injection H as <-.
    destruct (c45 inv Hs X y b V eq_refl eq_refl E) as (Ho & _ & _ & N & HN & HV & _). cbv zeta in *.
    assert (Hx : forall i j, at_ X i j = level s t i).
    { intros i j. unfold X, level. cbn [at_]. destruct (Nat.ltb i t); lra. }
    assert (Hy : forall i j, at_ y i j = incr s i) by reflexivity.
    specialize (HV ltac:(cbn; lia)). specialize (Ho 0 ltac:(cbn; lia)).
    destruct HN as (_ & _ & _ & HGN & _). cbn [gram nr nc at_ X] in HGN. specialize (HGN 0 0 ltac:(lia) ltac:(lia)). cbn [rsumn] in HGN.
    unfold delta in HGN. cbn [Nat.eqb] in HGN.
    assert (ESxx : rsumn (List.length s - 1) (fun k => at_ X k 0 * at_ X k 0)%R = chow_sxx s t).
    { unfold chow_sxx. apply rsumn_ext. intros i Hi. now rewrite Hx. }
    change (rsumn (List.length s - 1) (fun k => (nth k (map snd s) 0 * (if Nat.ltb k t then 0 else 1)) * (nth k (map snd s) 0 * (if Nat.ltb k t then 0 else 1)))%R)
      with (rsumn (List.length s - 1) (fun k => at_ X k 0 * at_ X k 0)%R) in HGN.
    rewrite ESxx in HGN.
    assert (HS0 : (0 <= chow_sxx s t)%R) by (apply rsumn_nonneg; intros; exact (Rle_0_sqr _)).
    assert (HS : (0 < chow_sxx s t)%R).
    { destruct (Rle_lt_or_eq_dec _ _ HS0) as [|E0]; auto. rewrite <- E0 in HGN. lra. }
    assert (EN : at_ N 0 0 = (/ chow_sxx s t)%R).
    { apply (Rmult_eq_reg_l (chow_sxx s t)); [|lra]. rewrite Rinv_r by lra. lra. }
    assert (Eres : forall i, resid X y (fun l => at_ b l 0) i = (incr s i - at_ b 0 0 * level s t i)%R).
    { intros i. unfold resid. change (nc X) with 1. cbn [rsumn]. rewrite Hx, Hy. lra. }
    assert (Eb : at_ b 0 0 = chow_slope s t).
    { unfold chow_slope. apply (Rmult_eq_reg_r (chow_sxx s t)); [|lra]. unfold Rdiv. rewrite Rmult_assoc, Rinv_l, Rmult_1_r by lra.
      rewrite (rsumn_ext _ _ (fun i => level s t i * incr s i - at_ b 0 0 * (level s t i * level s t i))%R) in Ho.
      2:{ intros i Hi. rewrite Hx, Eres. lra. }
      rewrite rsumn_minus, rsumn_scal in Ho. change (nr X) with (List.length s - 1) in Ho. fold (chow_sxx s t) in Ho. lra. }
    assert (Esse : sse X y (fun l => at_ b l 0) = chow_sse s t).
    { unfold sse, chow_sse. apply rsumn_ext. intros i Hi. rewrite Eres, Eb. reflexivity. }
    assert (EI : (INR (nr X) - INR (nc X))%R = (INR (List.length s) - 2)%R).
    { change (nr X) with (List.length s - 1). change (nc X) with 1. rewrite minus_INR by lia. cbn. lra. }
    rewrite HV, Esse, EN, EI, Eb.
    assert (Hdof : (0 < INR (List.length s) - 2)%R) by (apply le_INR in Hlen; cbn in Hlen; lra).
    assert (Hsse : (0 <= chow_sse s t)%R) by (apply rsumn_nonneg; intros; exact (Rle_0_sqr _)).
    set (q := (chow_sse s t / (INR (List.length s) - 2) * / chow_sxx s t)%R).
    split; auto. split.
    - intros Hp. assert (0 < q)%R by (unfold q; repeat apply Rmult_lt_0_compat; auto; now apply Rinv_0_lt_compat).
      cbn [esqrt]. destruct (Rlt_dec q 0); [lra|]. cbn [ediv aeqb Arith_R a0].
      pose proof (sqrt_lt_R0 q ltac:(auto)). destruct (Req_EM_T (sqrt q) 0); [lra|]. reflexivity.
    - intros Hz. assert (q = 0%R) as -> by (unfold q; rewrite Hz; lra). cbn [esqrt]. destruct (Rlt_dec 0 0); [lra|].
      rewrite sqrt_0. cbn [ediv aeqb Arith_R a0]. destruct (Req_EM_T 0 0); [reflexivity|lra].
  Qed.

  Lemma c62 m s out : 3 <= List.length s -> dfc_run inv m s = Ok out ->
    List.length out = List.length s - m - m /\
    forall q, q < List.length s - m - m -> exists e, nth_error out q = Some (nth (m + q) (map fst s) 0%Z, e) /\
      (0 < chow_sxx s (m + q))%R /\
      ((0 < chow_sse s (m + q))%R -> e = Fin (chow_t s (m + q))) /\
      (chow_sse s (m + q) = 0%R -> e = signed_inf (asign (chow_slope s (m + q)))).
  Proof.
    intros Hlen H. unfold dfc_run in H. destruct (mapM _ _) as [dfc|] eqn:E; cbn [bind] in H; [|discriminate].
    assert (out = combine (slice m (List.length s - m) (map fst s)) dfc) as -> by congruence. clear H.
    pose proof (mapM_length _ _ _ E) as HL. rewrite seq_length in HL. split.
    { rewrite combine_length. unfold slice. rewrite firstn_length, skipn_length, map_length. lia. }
    intros q Hq. destruct (mapM_nth _ _ _ q (m + q) E) as (e & He & E').
    { rewrite nth_error_seq' by lia. reflexivity. }
    exists e. split; [|now apply dfc_at_ok]. apply nth_error_combine; auto.
    unfold slice. rewrite nth_error_nth' with (d := 0%Z) by (rewrite firstn_length, skipn_length, map_length; lia). f_equal.
    rewrite nth_firstn_lt by lia. apply nth_error_nth. rewrite nth_error_skipn. apply nth_error_nth'. rewrite map_length. lia.
  Qed.

  Lemma c62_defined m s : inv_complete 1 inv ->
    ((exists out, dfc_run inv m s = Ok out) <-> forall t, m <= t -> t + m < List.length s -> chow_sxx s t <> 0%R).
  Proof.
    intros Hc.
    assert (Hat : forall t, (exists e, dfc_at inv (map snd s) t = Ok e) <-> chow_sxx s t <> 0%R).
    { intros t. unfold dfc_at. rewrite map_length.
      set (X := {| nr := List.length s - 1; nc := 1; at_ := fun i _ => (nth i (map snd s) 0 * (if Nat.ltb i t then 0 else 1))%R |}).
      set (y := {| nr := List.length s - 1; nc := 1; at_ := fun i _ => (nth (i + 1) (map snd s) 0 - nth i (map snd s) 0)%R |}).
      assert (ESxx : rsumn (nr X) (fun k => at_ X k 0 * at_ X k 0)%R = chow_sxx s t).
      { unfold chow_sxx. apply rsumn_ext. intros i Hi. unfold X, level. cbn [at_]. destruct (Nat.ltb i t); lra. }
      assert (HI : (exists N, inverse_of (gram X) N) <-> chow_sxx s t <> 0%R).
      { split.
        - intros (N & _ & _ & _ & HL & _). specialize (HL 0 0 ltac:(cbn; lia) ltac:(cbn; lia)). cbn [gram nr nc at_] in HL. change (nc X) with 1 in HL.
          cbn [rsumn] in HL. rewrite ESxx in HL. unfold delta in HL. cbn [Nat.eqb] in HL. intros E0. rewrite E0 in HL. lra.
        - intros Hne. exists {| nr := 1; nc := 1; at_ := fun _ _ => (/ chow_sxx s t)%R |}.
          split; [reflexivity|]. split; [reflexivity|]. split; [reflexivity|]. cbn [gram nr nc at_]. change (nc X) with 1.
          split; intros i j Hi Hj; assert (i = 0) as -> by lia; assert (j = 0) as -> by lia; cbn [rsumn]; rewrite ESxx; unfold delta; cbn [Nat.eqb]; field; auto. }
      rewrite <- HI, <- (ols_defined inv X y Hs Hc eq_refl). split.
      - intros [e He]. destruct (get_beta_and_beta_var inv X y) as [[b V]|]; [eauto|discriminate].
      - intros (b & V & ->). cbn [bind]. eauto. }
    unfold dfc_run. split.
    - intros [out H] t Ht1 Ht2. destruct (mapM _ _) as [dfc|] eqn:E; cbn [bind] in H; [|discriminate].
      apply Hat. destruct (mapM_nth _ _ _ (t - m) t E) as (e & _ & He); [|eauto].
      rewrite nth_error_seq' by lia. f_equal. lia.
    - intros Hall. assert (exists dfc, mapM (dfc_at inv (map snd s)) (seq m (List.length s - m - m)) = Ok dfc) as [dfc ->]; [|cbn [bind]; eauto].
      assert (Hin : forall t, In t (seq m (List.length s - m - m)) -> exists e, dfc_at inv (map snd s) t = Ok e).
      { intros t Ht. apply in_seq in Ht. apply Hat, Hall; lia. }
      revert Hin. generalize (seq m (List.length s - m - m)) as l. induction l as [|a l IH]; intros Hin; [now exists []|]. cbn [mapM].
      destruct (Hin a (or_introl eq_refl)) as [e ->]. cbn [bind]. destruct IH as [r ->]; [intros; apply Hin; now right|]. cbn [bind]. eauto.
  Qed.
End Chow.

(** Two series that agree up to the reported time and get different statistics there. *)
Lemma chow_lookahead inv : inv_sound inv -> inv_complete 1 inv ->
  exists out out' a b, dfc_run inv 1 [(0, 1%R); (1, 2%R); (2, 3%R); (3, 5%R)]%Z = Ok out /\ dfc_run inv 1 [(0, 1%R); (1, 2%R); (2, 3%R); (3, 6%R)]%Z = Ok out' /\
    nth_error out 1 = Some (2%Z, Fin a) /\ nth_error out' 1 = Some (2%Z, Fin b) /\ a <> b.
Proof.
  intros Hs Hc.
  set (s := [(0, 1%R); (1, 2%R); (2, 3%R); (3, 5%R)]%Z). set (s' := [(0, 1%R); (1, 2%R); (2, 3%R); (3, 6%R)]%Z).
  assert (Hd : forall s0, s0 = s \/ s0 = s' -> exists out, dfc_run inv 1 s0 = Ok out).
  { intros s0 H0. apply c62_defined; auto. intros t H1 H2.
    destruct H0 as [->| ->]; cbn in H2; assert (t = 1 \/ t = 2) as [->| ->] by lia; unfold chow_sxx, level; cbn; lra. }
  destruct (Hd s (or_introl eq_refl)) as [out E]. destruct (Hd s' (or_intror eq_refl)) as [out' E'].
  destruct (c62 inv Hs 1 s out ltac:(cbn; lia) E) as [_ H]. destruct (c62 inv Hs 1 s' out' ltac:(cbn; lia) E') as [_ H'].
  destruct (H 1 ltac:(cbn; lia)) as (e & Hn & _ & He & _). destruct (H' 1 ltac:(cbn; lia)) as (e' & Hn' & _ & He' & _).
  cbn [Nat.add] in *.
  assert (S1 : chow_slope s 2 = (2 / 3)%R) by (unfold chow_slope, chow_sxx, level, incr; cbn; field).
  assert (S2 : chow_slope s' 2 = 1%R) by (unfold chow_slope, chow_sxx, level, incr; cbn; field).
  assert (Q1 : chow_sse s 2 = 2%R) by (unfold chow_sse; rewrite S1; unfold level, incr; cbn; field).
  assert (Q2 : chow_sse s' 2 = 2%R) by (unfold chow_sse; rewrite S2; unfold level, incr; cbn; field).
  rewrite He in Hn by (rewrite Q1; lra). rewrite He' in Hn' by (rewrite Q2; lra).
  exists out, out', (chow_t s 2), (chow_t s' 2). repeat split; auto.
  assert (HX : chow_sxx s 2 = 9%R) by (unfold chow_sxx, level; cbn; lra).
  assert (HX' : chow_sxx s' 2 = 9%R) by (unfold chow_sxx, level; cbn; lra).
  unfold chow_t. rewrite S1, S2, Q1, Q2, HX, HX'. cbn [List.length s s'].
  replace (INR 4) with 4%R by (cbn; lra).
  assert (0 < sqrt (2 / (4 - 2) / 9))%R by (apply sqrt_lt_R0; lra).
  set (q := sqrt (2 / (4 - 2) / 9)) in *. intros E0.
  assert (2 / 3 = 1)%R; [|lra]. transitivity (2 / 3 / q * q)%R; [field; lra|]. rewrite E0. field. lra.
Qed.
