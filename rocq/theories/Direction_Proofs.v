(** Proofs: the sign of a fitted trend. *)
From Coq Require Import Reals Lra Lia.
From Verif Require Import PreludeFacts Series OLS_Model OLS_Spec OLS_Proofs Trend_Model Trend_Spec Trend_Proofs Trend_Proofs2 Trend_Proofs3 Direction_Spec.
Local Open Scope nat_scope.

Lemma mean_INR n : 1 <= n -> mean n INR = ((INR n - 1) / 2)%R.
Proof.
  intros Hn. assert (E : rsumn n INR = (INR n * (INR n - 1) / 2)%R).
  { clear. induction n as [|n IH]; [cbn; lra|]. cbn [rsumn]. rewrite IH, S_INR. lra. }
  unfold mean. rewrite E. pose proof (INR_pos n Hn). field. lra.
Qed.
Lemma slope_shift n y c : 1 <= n -> (rsumn n (fun i => (INR i - mean n INR) * (y i - mean n y)) = rsumn n (fun i => (INR i - mean n INR) * (y i - c)))%R.
Proof.
  intros Hn. rewrite (rsumn_ext n _ (fun i => (INR i - mean n INR) * (y i - c) + (INR i - mean n INR) * (c - mean n y))%R) by (intros; lra).
  rewrite rsumn_plus, rsumn_scal_r, mean_dev by exact Hn. lra.
Qed.
Lemma mean_const n c y : 1 <= n -> (forall i, i < n -> y i = c) -> mean n y = c.
Proof. intros Hn H. unfold mean. rewrite (rsumn_ext n y (fun _ => c) H), rsumn_const. pose proof (INR_pos n Hn). field. lra. Qed.
Lemma const_rss n c y : 1 <= n -> (forall i, i < n -> y i = c) -> rss n y = 0%R.
Proof.
  intros Hn H. unfold rss. assert (S0 : slope n y = 0%R).
  { unfold slope. rewrite rsumn_zero; [unfold Rdiv; lra|]. intros i Hi. rewrite (mean_const n c y Hn H), (H i Hi). lra. }
  apply rsumn_zero. intros i Hi. cbv zeta. rewrite S0, (mean_const n c y Hn H), (H i Hi). lra.
Qed.
Lemma slope_pos n y : 2 <= n -> never_falls y n -> rss n y <> 0%R -> (0 < slope n y)%R.
Proof.
  intros Hn Hy Hr. unfold slope. apply Rdiv_lt_0_compat; [|now apply sxx_pos]. set (m := (n - 1) / 2).
  assert (Hm : (2 * INR m <= INR n - 1 < 2 * INR m + 2)%R).
  { assert (M : 2 * m <= n - 1 < 2 * m + 2) by (pose proof (Nat.div_mod (n - 1) 2 (Nat.neq_succ_0 1)) as D1; pose proof (Nat.mod_upper_bound (n - 1) 2 (Nat.neq_succ_0 1)) as D2; fold m in D1; clearbody m; lia).
    assert (M1 : (INR (2 * m) <= INR (n - 1))%R) by (apply le_INR; lia). assert (M2 : (INR (n - 1) < INR (2 * m + 2))%R) by (apply lt_INR; lia).
    rewrite minus_INR in M1, M2 by lia. rewrite mult_INR in M1. rewrite plus_INR, mult_INR in M2. cbn [INR] in M1, M2. lra. }
  assert (Mn : m < n) by (pose proof (Nat.div_le_upper_bound (n - 1) 2 (n - 1) (Nat.neq_succ_0 1) ltac:(lia)) as D1; fold m in D1; clearbody m; lia).
  rewrite (slope_shift n y (y m)) by lia. rewrite mean_INR by lia.
  assert (T : forall i, i < n -> (0 <= (INR i - (INR n - 1) / 2) * (y i - y m))%R).
  { intros i Hi. destruct (le_lt_dec i m) as [L|L].
    - pose proof (Hy i m ltac:(lia)). pose proof (le_INR _ _ L). assert (0 <= ((INR n - 1) / 2 - INR i) * (y m - y i))%R by (apply Rmult_le_pos; lra). lra.
    - pose proof (Hy m i ltac:(lia)). pose proof (le_INR (S m) i L) as L'. rewrite S_INR in L'. apply Rmult_le_pos; lra. }
  destruct (Rle_lt_or_eq_dec _ _ (rsumn_nonneg _ _ T)) as [|E]; [assumption|]. exfalso. apply Hr.
  apply (const_rss n (y m)); [lia|]. intros i Hi. pose proof (rsumn_zero_inv _ _ T (eq_sym E) i Hi) as Z. cbv beta in Z.
  apply Rmult_integral in Z. destruct Z as [Z|Z]; [|lra].
  destruct (lt_eq_lt_dec i m) as [[L|L]|L]; [| now subst|]; exfalso; pose proof (le_INR _ _ L) as L'; rewrite S_INR in L'; lra.
Qed.
Lemma rss_nonneg n y : (0 <= rss n y)%R.
Proof. apply rsumn_nonneg. intros i _. exact (Rle_0_sqr _). Qed.
Lemma trend_t_pos n y : 3 <= n -> never_falls y n -> rss n y <> 0%R -> (0 < trend_t n y)%R.
Proof.
  intros Hn Hy Hr. unfold trend_t. apply Rdiv_lt_0_compat; [apply slope_pos; auto; lia|]. apply sqrt_lt_R0.
  pose proof (rss_nonneg n y). pose proof (sxx_pos n ltac:(lia)). pose proof (le_INR 3 n Hn) as H3. cbn [INR] in H3.
  repeat apply Rdiv_lt_0_compat; lra.
Qed.
Lemma rss_ext n y z : (forall i, i < n -> y i = z i) -> rss n y = rss n z.
Proof.
  intros H. assert (M : mean n y = mean n z) by (unfold mean; now rewrite (rsumn_ext n y z H)).
  assert (S0 : slope n y = slope n z). { unfold slope. f_equal. apply rsumn_ext. intros i Hi. now rewrite M, H. }
  unfold rss. apply rsumn_ext. intros i Hi. cbv zeta. now rewrite M, S0, H.
Qed.
Lemma trend_t_neg n y : 3 <= n -> never_rises y n -> rss n y <> 0%R -> (trend_t n y < 0)%R.
Proof.
  intros Hn Hy Hr. pose proof (trend_t_affine n (-1) 0 y Hn ltac:(lra)) as A. pose proof (rss_affine n (-1) 0 y ltac:(lia)) as B.
  assert (P : (0 < trend_t n (fun i => -1 * y i + 0))%R). { apply trend_t_pos; [exact Hn| |lra]. intros i j Hij. pose proof (Hy i j Hij). lra. }
  rewrite A in P. unfold sgn in P. destruct (Rlt_dec (-1) 0); lra.
Qed.

(** ** The trend scanner *)
Section Scan.
  Variables (inv : mat -> result mat) (Hs : inv_sound inv) (Hc : inv_complete 2 inv) (cfg : trend_cfg) (H1 : t_step cfg = 1) (H3 : 3 <= t_min cfg < t_window cfg).
  Lemma scan_row junk events y rows i t k p0 r : increasingZ (map fst y) -> snd (transform inv junk cfg events y) = Ok rows ->
    nth_error (match events with None => map fst y | Some ev => ev end) i = Some t -> nth_error y k = Some (t, p0) -> k + t_window cfg <= length y -> nth_error rows i = Some r ->
    exists w te pe, t_min cfg <= w < t_window cfg /\ ~ straight y k w /\ nth_error y (k + w - 1) = Some (te, pe) /\ tr_end r = Some te /\
      tr_t r = Fin (t_of y k w) /\ tr_label r = Fin (sgn (t_of y k w)) /\ (p0 <> 0%R -> tr_return r = Fin (pe / p0 - 1)%R).
  Proof.
    intros Hi E Ht Hk Hw Hr. assert (F : Forall2 (row_ok cfg y) (match events with None => map fst y | Some ev => ev end) rows) by exact (c32 inv Hs Hc cfg H1 H3 junk events y rows Hi E).
    assert (R : row_ok cfg y t r).
    { clear -F Ht Hr. revert Ht F. generalize (match events with None => map fst y | Some ev => ev end). intros evs Ht F. revert i Ht Hr. induction F as [|a b la lb Hab F IH]; intros [|i] Ha Hb; try discriminate; cbn in Ha, Hb; [|eauto]. injection Ha as <-. injection Hb as <-. exact Hab. }
    destruct R as (k' & p0' & Hk' & Hst & R).
    assert (k' = k).
    { apply (proj1 (NoDup_nth_error (map fst y)) (increasingZ_NoDup _ Hi)); [rewrite map_length; apply nth_error_Some; congruence|]. now rewrite !nth_error_map, Hk, Hk'. }
    subst k'. rewrite Hk in Hk'. injection Hk' as <-. destruct R as [(L & w & te & pe & B & Hpe & He & Ht' & Hl & Hret)|(L & _)]; [|lia].
    assert (I : incl (match events with None => map fst y | Some ev => ev end) (map fst y)).
    { clear -F. induction F as [|a b la lb (k & p & Hk & _) F IH]; [easy|]. apply incl_cons; [|exact IH]. apply (in_map fst _ (a, p)). eapply nth_error_In. exact Hk. }
    destruct (c32_defined inv Hs Hc cfg H1 H3 junk events y Hi I) as [[D _] _].
    exists w, te, pe. repeat split; auto; [apply B|apply B|]. eapply D; [now exists rows|eapply nth_error_In; exact Ht|exact Hk|exact L|apply B].
  Qed.
  Lemma sgn_pos x : (0 < x)%R -> sgn x = 1%R.
  Proof. intros. unfold sgn. destruct (Rlt_dec x 0); [lra|]. destruct (Rlt_dec 0 x); lra. Qed.
  Lemma sgn_neg x : (x < 0)%R -> sgn x = (-1)%R.
  Proof. intros. unfold sgn. destruct (Rlt_dec x 0); lra. Qed.
  Lemma price_at y k w te pe : nth_error y (k + w - 1) = Some (te, pe) -> 1 <= w -> price y k (w - 1) = pe.
  Proof. intros H Hw. unfold price. replace (k + (w - 1)) with (k + w - 1) by lia. rewrite (nth_error_nth _ _ 0%R (x := pe)); [reflexivity|]. now rewrite nth_error_map, H. Qed.
  Lemma price_zero y k t p0 : nth_error y k = Some (t, p0) -> price y k 0 = p0.
  Proof. intros H. unfold price. rewrite Nat.add_0_r. rewrite (nth_error_nth _ _ 0%R (x := p0)); [reflexivity|]. now rewrite nth_error_map, H. Qed.
  Lemma scan_up junk events y rows i t k p0 r : increasingZ (map fst y) -> snd (transform inv junk cfg events y) = Ok rows ->
    nth_error (match events with None => map fst y | Some ev => ev end) i = Some t -> nth_error y k = Some (t, p0) -> k + t_window cfg <= length y -> nth_error rows i = Some r ->
    never_falls (price y k) (t_window cfg - 1) ->
    tr_label r = Fin 1%R /\ (exists v, tr_t r = Fin v /\ (0 < v)%R) /\ ((0 < p0)%R -> exists v, tr_return r = Fin v /\ (0 <= v)%R).
  Proof.
    intros Hi E Ht Hk Hw Hr U. destruct (scan_row junk events y rows i t k p0 r Hi E Ht Hk Hw Hr) as (w & te & pe & B & S0 & Hpe & _ & T & L & Ret).
    assert (P : (0 < t_of y k w)%R). { apply trend_t_pos; [lia| |exact S0]. intros a b Hab. apply U. lia. }
    rewrite L, T, (sgn_pos _ P). split; [reflexivity|]. split; [eauto|]. intros Hp. rewrite Ret by lra. eexists; split; [reflexivity|].
    pose proof (U 0 (w - 1) ltac:(lia)) as V. rewrite (price_at y k w te pe Hpe), (price_zero y k t p0 Hk) in V by lia.
    assert (1 <= pe / p0)%R; [|lra]. apply (Rmult_le_reg_r p0); [lra|]. unfold Rdiv. rewrite Rmult_assoc, Rinv_l; lra.
  Qed.
  Lemma scan_down junk events y rows i t k p0 r : increasingZ (map fst y) -> snd (transform inv junk cfg events y) = Ok rows ->
    nth_error (match events with None => map fst y | Some ev => ev end) i = Some t -> nth_error y k = Some (t, p0) -> k + t_window cfg <= length y -> nth_error rows i = Some r ->
    never_rises (price y k) (t_window cfg - 1) ->
    tr_label r = Fin (-1)%R /\ (exists v, tr_t r = Fin v /\ (v < 0)%R) /\ ((0 < p0)%R -> exists v, tr_return r = Fin v /\ (v <= 0)%R).
  Proof.
    intros Hi E Ht Hk Hw Hr U. destruct (scan_row junk events y rows i t k p0 r Hi E Ht Hk Hw Hr) as (w & te & pe & B & S0 & Hpe & _ & T & L & Ret).
    assert (P : (t_of y k w < 0)%R). { apply trend_t_neg; [lia| |exact S0]. intros a b Hab. apply U. lia. }
    rewrite L, T, (sgn_neg _ P). split; [reflexivity|]. split; [eauto|]. intros Hp. rewrite Ret by lra. eexists; split; [reflexivity|].
    pose proof (U 0 (w - 1) ltac:(lia)) as V. rewrite (price_at y k w te pe Hpe), (price_zero y k t p0 Hk) in V by lia.
    assert (pe / p0 <= 1)%R; [|lra]. apply (Rmult_le_reg_r p0); [lra|]. unfold Rdiv. rewrite Rmult_assoc, Rinv_l; lra.
  Qed.
End Scan.
