(** Proofs for the trend scanner: steps above one read uninitialised memory; the assumptions on the inverse can be met. *)
From Coq Require Import Reals Lra.
From Verif Require Import PreludeFacts Series Boot_Model Boot_Proofs Boot_Proofs2 Label_Model Label_Proofs2 OLS_Model OLS_Spec OLS_Proofs
  Trend_Model Trend_Spec Trend_Proofs Trend_Proofs2 Trend_Proofs3.
Local Open Scope nat_scope.

Lemma inv_small_sound : inv_sound inv_small.
Proof.
  intros M N H. unfold inv_small in H. destruct (Nat.eqb_spec (nc M) (nr M)) as [E|]; [|discriminate]. cbn [negb] in H.
  destruct (nr M) as [|[|[|n]]] eqn:En; try discriminate.
  - destruct (Req_EM_T (at_ M 0 0) 0) as [|Hd]; [discriminate|]. injection H as <-. split; [congruence|]. cbn. rewrite En. repeat split;
      intros i j Hi Hj; assert (i = 0) as -> by lia; assert (j = 0) as -> by lia; unfold delta; cbn; field; auto.
  - cbv zeta in H. destruct (Req_EM_T _ 0) as [|Hd]; [discriminate|]. injection H as <-. split; [congruence|]. cbn [nr nc]. rewrite En.
    repeat split; intros i j Hi Hj; destruct i as [|[|i]]; try lia; destruct j as [|[|j]]; try lia; unfold delta; cbn; field; auto.
Qed.

Lemma inv_small_complete_2 : inv_complete 2 inv_small.
Proof.
  intros M N En (Ec & _ & _ & H & _). unfold inv_small. rewrite Ec, Nat.eqb_refl. cbn [negb]. rewrite En in *. cbv zeta.
  destruct (Req_EM_T _ 0) as [Hd|]; [|eauto]. exfalso.
  pose proof (H 0 0 ltac:(lia) ltac:(lia)) as H00. pose proof (H 0 1 ltac:(lia) ltac:(lia)) as H01.
  pose proof (H 1 0 ltac:(lia) ltac:(lia)) as H10. pose proof (H 1 1 ltac:(lia) ltac:(lia)) as H11.
  unfold delta in *. cbn [Nat.eqb rsumn] in *.
  set (A := at_ M 0 0) in *. set (B := at_ M 0 1) in *. set (C := at_ M 1 0) in *. set (D := at_ M 1 1) in *.
  set (e := at_ N 0 0) in *. set (f := at_ N 0 1) in *. set (g := at_ N 1 0) in *. set (h := at_ N 1 1) in *.
  assert ((0 + A * e + B * g) * (0 + C * f + D * h) - (0 + A * f + B * h) * (0 + C * e + D * g) = (A * D - B * C) * (e * h - f * g))%R as X by ring.
  rewrite H00, H01, H10, H11, Hd in X. lra.
Qed.

Lemma inv_small_complete_1 : inv_complete 1 inv_small.
Proof.
  intros M N En (Ec & _ & _ & H & _). unfold inv_small. rewrite Ec, Nat.eqb_refl. cbn [negb]. rewrite En in *.
  destruct (Req_EM_T _ 0) as [Hd|]; [|eauto]. exfalso.
  pose proof (H 0 0 ltac:(lia) ltac:(lia)) as H00. unfold delta in *. cbn [Nat.eqb rsumn] in *. rewrite Hd in H00. lra.
Qed.

(** A series that is not straight on any window from bar 0: one bar at 1, the others at 0. *)
Definition spike (n : nat) : list (Z * R) := map (fun i => (Z.of_nat i, if Nat.eqb i 0 then 1%R else 0%R)) (seq 0 n).
Lemma spike_nth n i : i < n -> nth i (map snd (spike n)) 0%R = if Nat.eqb i 0 then 1%R else 0%R.
Proof.
  intros Hi. unfold spike. rewrite map_map. cbn [snd].
  apply nth_error_nth. rewrite nth_error_map, nth_error_seq' by auto. reflexivity.
Qed.
Lemma bent_not_straight n (y : nat -> R) : 3 <= n -> (y 0%nat - 2 * y 1%nat + y 2%nat)%R <> 0%R -> rss n y <> 0%R.
Proof.
  intros Hn Hy E. unfold rss in E.
  assert (Hsq : forall i, i < n -> (0 <= (fun i => let e := (y i - mean n y - slope n y * (INR i - mean n INR)) in e * e) i)%R) by (intros i _; exact (Rle_0_sqr _)).
  pose proof (rsumn_zero_inv _ _ Hsq E 0 ltac:(lia)) as E0. pose proof (rsumn_zero_inv _ _ Hsq E 1 ltac:(lia)) as E1.
  pose proof (rsumn_zero_inv _ _ Hsq E 2 ltac:(lia)) as E2. cbv zeta in E0, E1, E2.
  apply Rsqr_0_uniq in E0. apply Rsqr_0_uniq in E1. apply Rsqr_0_uniq in E2.
  cbn [INR] in E0, E1, E2. lra.
Qed.

Definition settled (J : ext R) (arr : list (ext R)) : Prop := forall i x, nth_error arr i = Some x -> x = J \/ exists v, x = Fin v.

Lemma fold_skip (f : nat -> result (ext R)) m J n l : forall arr,
  length arr = n -> settled J arr ->
  (forall w, In w l -> m <= w < m + n /\ w - m <> 1 /\ exists v, f w = Ok (Fin v)) ->
  exists arr', foldM (fun arr w => do t <- f w ;; Ok (set_at arr (w - m) t)) arr l = Ok arr' /\ length arr' = n /\ settled J arr' /\
    nth_error arr' 1 = nth_error arr 1 /\ ((exists v, nth_error arr 0 = Some (Fin v)) -> exists v, nth_error arr' 0 = Some (Fin v)).
Proof.
  induction l as [|w l IH]; intros arr Hl Hst Hf; cbn [foldM].
  - exists arr. auto.
  - destruct (Hf w (or_introl eq_refl)) as (Hw & Hne & v & Hv). rewrite Hv. cbn [bind].
    destruct (IH (set_at arr (w - m) (Fin v))) as (arr' & E & Hl' & Hst' & H1 & H0).
    + now rewrite set_at_length.
    + intros i x. rewrite set_at_nth by lia. destruct (Nat.eqb i (w - m)); [intros [= <-]; eauto|apply Hst].
    + intros u Hu. apply Hf. now right.
    + exists arr'. split; auto. split; auto. split; auto. split.
      * rewrite H1. rewrite set_at_nth by lia. destruct (Nat.eqb_spec 1 (w - m)); [lia|auto].
      * intros (v0 & Hv0). apply H0. rewrite set_at_nth by lia. destruct (Nat.eqb 0 (w - m)); eauto.
Qed.

Lemma argmax_inf l : Forall (fun x => is_nan x = false) l -> forall bi i, argmax_loop PInf bi i l = bi.
Proof. induction 1 as [|x l Hx Hl IH]; intros bi i; cbn [argmax_loop]; auto. rewrite Hx. destruct x; cbn [eltb]; auto. Qed.

Lemma scan_junk inv J ys m step : inv_sound inv -> inv_complete 2 inv ->
  2 <= step -> 3 <= m -> m + 2 <= length ys -> (nth 0%nat ys 0 - 2 * nth 1%nat ys 0 + nth 2%nat ys 0)%R <> 0%R ->
  (J = PInf \/ J = NInf) ->
  scan_window inv (fun _ => J) ys m step = Ok (J, 1).
Proof.
  intros Hs Hc Hstep Hm Hl Hb HJ. unfold scan_window.
  assert (exists N, arange m (length ys) step = Ok (m :: map (fun k => m + k * step) (seq 1 N)) /\
    forall w, In w (map (fun k => m + k * step) (seq 1 N)) -> m + 2 <= w < length ys) as (N & -> & HN).
  { unfold arange. destruct step as [|st]; [lia|]. set (q := (length ys - m + (S st - 1)) / S st).
    assert (Hq : 1 <= q) by (apply Nat.div_le_lower_bound; lia).
    exists (q - 1). replace (seq 0 q) with (0 :: seq 1 (q - 1)) by (destruct q; [lia|]; cbn [seq]; now rewrite Nat.sub_succ, Nat.sub_0_r).
    cbn [map]. split; [do 2 f_equal; lia|]. intros w Hw. apply in_map_iff in Hw as (k & <- & Hk). apply in_seq in Hk.
    assert (S st * q <= length ys - m + (S st - 1)) by (apply Nat.mul_div_le; lia). nia. }
  cbn [bind].
  assert (Hwt : forall w, m <= w < length ys -> exists v, window_t inv (firstn w ys) = Ok (Fin v)).
  { intros w Hw. rewrite (window_firstn inv Hs Hc) by lia. cbv zeta. destruct (Req_EM_T _ 0) as [E|]; [|eauto].
    exfalso. revert E. apply bent_not_straight; [lia|exact Hb]. }
  cbn [foldM]. destruct (Hwt m ltac:(lia)) as [v0 Hv0]. rewrite Hv0. cbn [bind]. rewrite Nat.sub_diag.
  assert (Hjn : forall k, k < length ys - m -> nth_error (map (fun _ : nat => J) (seq 0 (length ys - m))) k = Some J) by (intros; rewrite nth_error_map, nth_error_seq' by auto; reflexivity).
  assert (Hjl : length (map (fun _ : nat => J) (seq 0 (length ys - m))) = length ys - m) by (now rewrite map_length, seq_length).
  set (arr0 := set_at (map (fun _ : nat => J) (seq 0 (length ys - m))) 0 (Fin v0)).
  assert (Hn0 : forall i, nth_error arr0 i = if Nat.eqb i 0 then Some (Fin v0) else nth_error (map (fun _ : nat => J) (seq 0 (length ys - m))) i).
  { intros i. apply set_at_nth. lia. }
  destruct (fold_skip (fun w => window_t inv (firstn w ys)) m J (length ys - m) (map (fun k => m + k * step) (seq 1 N)) arr0)
    as (arr & -> & Hal & Hst & H1 & H0).
  - unfold arr0. now rewrite set_at_length.
  - intros i x. rewrite Hn0. destruct (Nat.eqb i 0); [intros [= <-]; eauto|]. intros Hx.
    assert (i < length ys - m) by (rewrite <- Hjl; apply nth_error_Some; congruence). rewrite Hjn in Hx by auto. left. congruence.
  - intros w Hw. apply HN in Hw. split; [lia|]. split; [lia|]. apply Hwt. lia.
  - cbn [bind]. destruct H0 as [v H0]; [exists v0; now rewrite Hn0|]. rewrite Hn0 in H1. cbn [Nat.eqb] in H1. rewrite Hjn in H1 by lia.
    destruct arr as [|x0 [|x1 arr]]; [discriminate..|]. cbn in H0, H1. assert (x0 = Fin v) as -> by congruence. assert (x1 = J) as -> by congruence.
    assert (np_argmax (map eabs (Fin v :: J :: arr)) = Ok 1) as ->.
    { cbn [map np_argmax]. rewrite eabs_fin. cbn [is_nan argmax_loop].
      assert (eabs J = PInf) as -> by (destruct HJ as [-> | ->]; reflexivity). cbn [is_nan eltb]. f_equal. apply argmax_inf.
      apply Forall_forall. intros z Hz. apply in_map_iff in Hz as (x & <- & Hx). apply In_nth_error in Hx as [i Hi].
      destruct (Hst (S (S i)) x Hi) as [->|[u ->]]; [destruct HJ as [-> | ->]; reflexivity|reflexivity]. }
    reflexivity.
Qed.

Lemma c33_refuted inv cfg : inv_sound inv -> inv_complete 2 inv ->
  2 <= t_step cfg -> 3 <= t_min cfg -> t_min cfg + 2 <= t_window cfg ->
  exists events y junk junk' rows rows',
    snd (transform inv junk cfg events y) = Ok rows /\ snd (transform inv junk' cfg events y) = Ok rows' /\ rows <> rows'.
Proof.
  intros Hs Hc Hst Hm Hw. set (L := t_window cfg). set (y := spike L).
  assert (HR : forall J, J = PInf \/ J = NInf -> exists r, snd (transform inv (fun _ _ => J) cfg (Some [0%Z]) y) = Ok [r] /\ tr_t r = J).
  { intros J HJ.
    assert (Hly : length y = L) by (unfold y, spike; now rewrite map_length, seq_length).
    rewrite transform_unfold. cbn [ev_of].
    assert (Hpos : position 0 (map fst y) = Some 0).
    { unfold y, spike. destruct L as [|n] eqn:E; [unfold L in E; lia|]. reflexivity. }
    rewrite (proj2 (known_iff _ _)).
    2:{ intros z [<-|[]]. apply position_Some in Hpos. eapply nth_error_In; eauto. }
    cbn [length seq combine mapM]. unfold one_row. rewrite Hpos.
    assert (scan_index inv (fun _ => J) (map snd y) 0 (t_min cfg) (t_window cfg) (t_step cfg) = Ok (Some (J, 0 + 1 + t_min cfg - 1))) as ->.
    { unfold scan_index. cbn [skipn]. fold L. rewrite firstn_all2 by (rewrite map_length; lia). rewrite map_length, Hly, Nat.eqb_refl.
      rewrite scan_junk; auto; [rewrite map_length, Hly; exact Hw|].
      unfold y. rewrite !spike_nth by (unfold L; lia). cbn [Nat.eqb]. lra. }
    cbn [bind trend_row_of]. destruct (get_lt y (0 + 1 + t_min cfg - 1)) as (re & -> & _); [rewrite Hly; unfold L; lia|].
    destruct (get_lt y 0) as (r0 & -> & _); [rewrite Hly; unfold L; lia|]. cbn [bind]. eexists. split; [reflexivity|reflexivity]. }
  destruct (HR PInf (or_introl eq_refl)) as (r & E & Er). destruct (HR NInf (or_intror eq_refl)) as (r' & E' & Er').
  exists (Some [0%Z]), y, (fun _ _ => PInf), (fun _ _ => NInf), [r], [r']. split; auto. split; auto. intros [= ->]. congruence.
Qed.

Lemma c34_refuted inv junk cfg : 2 <= t_window cfg ->
  exists y1 y2 rows, snd (transform inv junk cfg None y2) = Ok rows /\
    snd (transform inv junk cfg (after inv junk cfg None [y1]) y2) = Err AssertionError.
Proof.
  intros Hw. exists [(0%Z, 1%R)], [(1%Z, 1%R)]. eexists. split; [|reflexivity].
  cbn [transform snd negb map fst length seq combine mapM position Z.eqb Pos.eqb]. unfold scan_index. cbn [skipn map snd].
  destruct (Nat.eqb_spec (length (firstn (t_window cfg) [1%R])) (t_window cfg)) as [E|E]; cbn [bind].
  - rewrite firstn_length in E. cbn in E. lia.
  - reflexivity.
Qed.

Lemma c32_unknown inv junk cfg ev y : ~ incl ev (map fst y) -> snd (transform inv junk cfg (Some ev) y) = Err AssertionError.
Proof.
  intros H. rewrite transform_unfold. cbn [ev_of]. destruct (forallb _ ev) eqn:E; auto. now apply known_iff in E.
Qed.
Lemma c34 inv junk cfg ev history y :
  transform inv junk cfg (after inv junk cfg (Some ev) history) y = transform inv junk cfg (Some ev) y.
Proof. now rewrite c34_given. Qed.
Lemma c34_mem inv junk cfg y1 history y :
  transform inv junk cfg (after inv junk cfg None (y1 :: history)) y = transform inv junk cfg (Some (map fst y1)) y.
Proof. now rewrite c34_first. Qed.

Definition ex_y' : list (Z * R) := [(10%Z, 3%R); (20%Z, 2%R); (30%Z, 2%R); (40%Z, 2%R); (50%Z, 7%R)].
Lemma ex_inc : increasingZ (map fst ex_y').
Proof. cbn. repeat constructor. Qed.
Lemma ex_trend : exists r, snd (transform inv_small (fun _ _ => NaN) {| t_window := 4; t_min := 3; t_step := 1 |} (Some [10%Z]) ex_y') = Ok [r] /\
  tr_end r = Some 30%Z /\ tr_label r = Fin (-1)%R /\ tr_return r = Fin (2 / 3 - 1)%R.
Proof.
  set (cfg := {| t_window := 4; t_min := 3; t_step := 1 |}).
  assert (Hm : 3 <= t_min cfg < t_window cfg) by (cbn; lia).
  assert (Hns : forall w, 3 <= w < 4 -> ~ straight ex_y' 0 w).
  { intros w Hw. apply bent_not_straight; [lia|]. unfold price. cbn. lra. }
  destruct (c32_defined inv_small inv_small_sound inv_small_complete_2 cfg eq_refl Hm (fun _ _ => NaN) (Some [10%Z]) ex_y' ex_inc) as [[_ H] _].
  { intros z [<-|[]]. now left. }
  destruct H as [rows H].
  { intros t k p0 w [<-|[]] Hk Hl Hw. destruct k as [|k]; [now apply Hns|].
    exfalso. destruct k as [|[|[|[|k]]]]; cbn in Hk; try discriminate. now destruct k. }
  pose proof (c32 inv_small inv_small_sound inv_small_complete_2 cfg eq_refl Hm _ _ _ _ ex_inc H) as HF.
  cbn [ev_of] in HF. inversion HF as [|t r l rs Hr HF' E1 E2]; subst. inversion HF'; subst. exists r. split; [exact H|].
  destruct Hr as (k & p0 & Hk & _ & Hr). destruct k as [|k].
  2:{ exfalso. destruct k as [|[|[|[|k]]]]; cbn in Hk; try discriminate. now destruct k. }
  cbn in Hk. injection Hk as <-. destruct Hr as [(_ & w & te & pe & (Hw & _) & Hte & He & Ht & Hlab & Hret)|(Hl & _)]; [|cbn in Hl; lia].
  cbn in Hw. assert (w = 3) as -> by lia. cbn in Hte. injection Hte as <- <-. split; [exact He|]. split.
  - rewrite Hlab. f_equal. unfold t_of, trend_t.
    assert (Hs : (slope 3 (price ex_y' 0) < 0)%R).
    { unfold slope. pose proof (sxx_pos 3 ltac:(lia)) as Hp.
      assert (rsumn 3 (fun i => (INR i - mean 3 INR) * (price ex_y' 0 i - mean 3 (price ex_y' 0))) = -1)%R as ->.
      { unfold mean, price. cbn. field. }
      unfold Rdiv. pose proof (Rinv_0_lt_compat _ Hp). lra. }
    assert (Hq : (0 < sqrt (rss 3 (price ex_y' 0) / (INR 3 - 2) / sxx 3))%R).
    { apply sqrt_lt_R0. pose proof (sxx_pos 3 ltac:(lia)) as Hp. specialize (Hns 3 ltac:(lia)). unfold straight in Hns.
      assert (0 <= rss 3 (price ex_y' 0))%R by (apply rsumn_nonneg; intros; exact (Rle_0_sqr _)).
      unfold Rdiv. repeat apply Rmult_lt_0_compat; try apply Rinv_0_lt_compat; try lra. cbn; lra. }
    unfold sgn. set (s := slope 3 (price ex_y' 0)) in *. set (q := sqrt _) in *.
    assert (s / q < 0)%R. { unfold Rdiv. pose proof (Rinv_0_lt_compat _ Hq). nra. }
    destruct (Rlt_dec (s / q) 0); [reflexivity|contradiction].
  - apply Hret. lra.
Qed.

Lemma c32_construct cfg :
  (construct cfg = Ok cfg <-> t_min cfg < t_window cfg) /\ (construct cfg = Err AssertionError <-> t_window cfg <= t_min cfg).
Proof. unfold construct. destruct (Nat.ltb_spec (t_min cfg) (t_window cfg)); split; split; intros; try lia; congruence. Qed.
