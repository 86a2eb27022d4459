(** C114: Chu-Stinchcombe-White and the Chow-type test under a change of unit. *)
From Coq Require Import Reals Lra String.
From Verif Require Import Series OLS_Model OLS_Spec OLS_Proofs Break_Model Break_Spec Break_Scale_Spec Break_Proofs5.
Local Open Scope nat_scope.

Lemma rescale_fst a b s : map fst (rescale a b s) = map fst s.
Proof. unfold rescale. rewrite map_map. reflexivity. Qed.
Lemma rescale_length a b s : List.length (rescale a b s) = List.length s.
Proof. apply map_length. Qed.
Lemma rescale_nth a b s i : i < List.length s -> nth i (map snd (rescale a b s)) 0%R = (a * nth i (map snd s) 0 + b)%R.
Proof.
  intros H. unfold rescale. rewrite map_map. cbn [snd]. rewrite <- (map_map snd (fun v => a * v + b)%R).
  rewrite (nth_indep _ 0%R (a * 0 + b)%R) by (rewrite !map_length; auto). apply (map_nth (fun v => a * v + b)%R).
Qed.

(** ** Chu-Stinchcombe-White *)
Lemma scaled_ratio e d v : (0 < e)%R -> ediv (Fin (e * d)%R) (esqrt (Fin (e * e * v)%R)) = ediv (Fin d) (esqrt (Fin v)).
Proof.
  intros He. cbn [esqrt]. assert (0 < e * e)%R by nra.
  destruct (Rlt_dec v 0), (Rlt_dec (e * e * v) 0); try reflexivity; try (exfalso; nra).
  rewrite sqrt_mult_alt by lra. rewrite sqrt_square by lra. cbn [ediv aeqb a0 Arith_R].
  destruct (Req_EM_T (sqrt v) 0) as [E|E], (Req_EM_T (e * sqrt v) 0) as [F|F]; try (exfalso; nra).
  - unfold asign. cbn [altb a0 Arith_R].
    destruct (Rlt_dec d 0), (Rlt_dec (e * d) 0), (Rlt_dec 0 d), (Rlt_dec 0 (e * d)); try reflexivity; exfalso; nra.
  - cbn [adiv amul ainv Arith_R]. f_equal. unfold adiv. cbn. field. split; auto. lra.
Qed.

Lemma diff_pos d a b x y : (0 < a)%R -> get_y_t_y_n_diff (side_name d) (a * x + b) (a * y + b) = (a * get_y_t_y_n_diff (side_name d) x y)%R.
Proof.
  intros Ha. destruct d; unfold get_y_t_y_n_diff; cbn; try ring.
  replace (a * x + b - (a * y + b))%R with (a * (x - y))%R by ring. rewrite Rabs_mult, (Rabs_pos_eq a) by lra. reflexivity.
Qed.
Lemma diff_neg d a b x y : (a < 0)%R -> get_y_t_y_n_diff (side_name d) (a * x + b) (a * y + b) = (- a * get_y_t_y_n_diff (side_name (opposite d)) x y)%R.
Proof.
  intros Ha. destruct d; unfold get_y_t_y_n_diff; cbn; try ring.
  replace (a * x + b - (a * y + b))%R with (a * (x - y))%R by ring. rewrite Rabs_mult, (Rabs_left a) by lra. reflexivity.
Qed.

Lemma csw_at_change d d' e a b s t : (0 < e)%R -> (e * e = a * a)%R ->
  (forall x y, get_y_t_y_n_diff d (a * x + b) (a * y + b) = (e * get_y_t_y_n_diff d' x y)%R) ->
  2 <= t <= List.length s -> csw_at d (map snd (rescale a b s)) t = csw_at d' (map snd s) t.
Proof.
  intros He Hea Hd Ht. unfold csw_at. set (ys' := map snd (rescale a b s)). set (ys := map snd s).
  set (v := (rsumn (t - 1) (fun i => (nth (i + 1) ys 0 - nth i ys 0) * (nth (i + 1) ys 0 - nth i ys 0)) / INR (t - 1))%R).
  assert (rsumn (t - 1) (fun i => (nth (i + 1) ys' 0 - nth i ys' 0) * (nth (i + 1) ys' 0 - nth i ys' 0)) / INR (t - 1) = e * e * v)%R as ->.
  { unfold v. rewrite Hea. unfold Rdiv. rewrite <- Rmult_assoc. f_equal. rewrite <- rsumn_scal. apply rsumn_ext. intros i Hi.
    unfold ys'. rewrite !rescale_nth by lia. fold ys. ring. }
  assert (HF : forall l best, (forall j, In j l -> j < t - 1) ->
    fold_left (csw_inner d ys' t (e * e * v) (nth (t - 1) ys' 0%R)) l best = fold_left (csw_inner d' ys t v (nth (t - 1) ys 0%R)) l best).
  { induction l as [|j l IH]; intros best Hl; auto. cbn [fold_left].
    assert (csw_inner d ys' t (e * e * v) (nth (t - 1) ys' 0%R) best j = csw_inner d' ys t v (nth (t - 1) ys 0%R) best j) as ->.
    { pose proof (Hl j (or_introl eq_refl)). unfold csw_inner. unfold ys'. rewrite !rescale_nth by lia. fold ys. rewrite Hd.
      rewrite (Rmult_assoc (e * e)). rewrite scaled_ratio by auto. reflexivity. }
    apply IH. intros; apply Hl; now right. }
  apply HF. intros j Hj. apply in_seq in Hj. lia.
Qed.

Lemma csw_run_change d d' e a b s : (0 < e)%R -> (e * e = a * a)%R ->
  (forall x y, get_y_t_y_n_diff d (a * x + b) (a * y + b) = (e * get_y_t_y_n_diff d' x y)%R) ->
  csw_run d (rescale a b s) = csw_run d' s.
Proof.
  intros He Hea Hd. unfold csw_run. rewrite rescale_fst, rescale_length. f_equal.
  apply map_ext_in. intros t Ht. apply in_seq in Ht. apply (csw_at_change d d' e); auto. lia.
Qed.
Lemma c114_csw d a b s : (0 < a)%R -> csw_run (side_name d) (rescale a b s) = csw_run (side_name d) s.
Proof. intros Ha. apply (csw_run_change _ _ a); auto. intros; now apply diff_pos. Qed.
Lemma c114_csw_mirror d a b s : (a < 0)%R -> csw_run (side_name d) (rescale a b s) = csw_run (side_name (opposite d)) s.
Proof. intros Ha. apply (csw_run_change _ _ (- a)%R); [lra|ring|]. intros; now apply diff_neg. Qed.

(** ** Chow-type Dickey-Fuller *)
Section Chow.
  Variables (a : R) (s : list (Z * R)).
  Hypothesis Ha : a <> 0%R.
  Let s' := rescale a 0 s.

  Lemma level_scale t i : i < List.length s -> level s' t i = (a * level s t i)%R.
  Proof. intros Hi. unfold level. destruct (Nat.ltb i t); [ring|]. unfold s'. rewrite rescale_nth by auto. ring. Qed.
  Lemma incr_scale i : i + 1 < List.length s -> incr s' i = (a * incr s i)%R.
  Proof. intros Hi. unfold incr, s'. rewrite !rescale_nth by lia. ring. Qed.
  Lemma sxx_scale t : chow_sxx s' t = (a * a * chow_sxx s t)%R.
  Proof.
    unfold chow_sxx. unfold s' at 1. rewrite rescale_length. rewrite <- rsumn_scal. apply rsumn_ext. intros i Hi.
    rewrite level_scale by lia. ring.
  Qed.
  Lemma slope_scale t : chow_slope s' t = chow_slope s t.
  Proof.
    unfold chow_slope. rewrite sxx_scale. unfold s' at 1. rewrite rescale_length.
    rewrite (rsumn_ext _ _ (fun i => a * a * (level s t i * incr s i))%R).
    2:{ intros i Hi. rewrite level_scale, incr_scale by lia. ring. }
    rewrite rsumn_scal. unfold Rdiv. rewrite Rinv_mult.
    transitivity (a * a * / (a * a) * (rsumn (List.length s - 1) (fun i => level s t i * incr s i) * / chow_sxx s t))%R; [ring|].
    rewrite Rinv_r by nra. ring.
  Qed.
  Lemma chow_sse_scale t : chow_sse s' t = (a * a * chow_sse s t)%R.
  Proof.
    unfold chow_sse. rewrite slope_scale. unfold s' at 1. rewrite rescale_length. rewrite <- rsumn_scal. apply rsumn_ext. intros i Hi.
    cbv zeta. rewrite level_scale, incr_scale by lia. ring.
  Qed.
  Lemma chow_t_scale t : chow_t s' t = chow_t s t.
  Proof.
    unfold chow_t. rewrite slope_scale, chow_sse_scale, sxx_scale. unfold s'. rewrite rescale_length. do 2 f_equal.
    unfold Rdiv. rewrite Rinv_mult.
    transitivity (a * a * / (a * a) * (chow_sse s t * / (INR (List.length s) - 2) * / chow_sxx s t))%R; [ring|].
    rewrite Rinv_r by nra. ring.
  Qed.

  Lemma c114_chow inv m out : inv_sound inv -> inv_complete 1 inv -> 3 <= List.length s ->
    dfc_run inv m s = Ok out -> dfc_run inv m (rescale a 0 s) = Ok out.
  Proof.
    intros Hs Hc Hlen H. fold s'.
    assert (L : List.length s' = List.length s) by apply rescale_length.
    destruct (proj2 (c62_defined inv Hs m s' Hc)) as [out' H'].
    { intros t H1 H2. rewrite sxx_scale. rewrite L in H2.
      pose proof (proj1 (c62_defined inv Hs m s Hc) (ex_intro _ out H) t H1 H2). intros E. apply Rmult_integral in E. destruct E; [nra|auto]. }
    rewrite H'. f_equal.
    destruct (c62 inv Hs m s out Hlen H) as [E1 R1]. destruct (c62 inv Hs m s' out' ltac:(lia) H') as [E2 R2]. rewrite L in *.
    assert (N : forall q, nth_error out' q = nth_error out q).
    { intros q. destruct (Nat.lt_ge_cases q (List.length s - m - m)) as [Hq|Hq].
      - destruct (R1 q Hq) as (e & -> & X1 & A1 & B1). destruct (R2 q Hq) as (e' & -> & X2 & A2 & B2).
        assert (F : map fst s' = map fst s) by apply rescale_fst. rewrite F. do 2 f_equal.
        rewrite chow_sse_scale, chow_t_scale in A2. rewrite chow_sse_scale, slope_scale in B2.
        assert (0 <= chow_sse s (m + q))%R as [P|P].
        { unfold chow_sse. apply rsumn_nonneg. intros i _. apply Rle_0_sqr. }
        + rewrite A1, A2; auto. assert (0 < a * a)%R by nra. apply Rmult_lt_0_compat; auto.
        + rewrite B1, B2; auto. rewrite <- P. ring.
      - rewrite !(proj2 (nth_error_None _ _)); auto; lia. }
    clear - N. revert out N. induction out' as [|x l IH]; intros [|y r] N; auto.
    - specialize (N 0). discriminate.
    - specialize (N 0). discriminate.
    - pose proof (N 0) as N0. cbn in N0. injection N0 as ->. f_equal. apply IH. intros q. exact (N (S q)).
  Qed.
End Chow.

(** Logarithms of the prices 1, 1, e, e^3; the prices in another unit. *)
Definition ex_logs : list (Z * R) := [(0, 0%R); (1, 0%R); (2, 1%R); (3, 3%R)]%Z.
Lemma c114_chow_shift inv : inv_sound inv -> inv_complete 1 inv ->
  exists out out' v, dfc_run inv 1 ex_logs = Ok out /\ dfc_run inv 1 (rescale 1 1 ex_logs) = Ok out' /\
    nth_error out 0 = Some (1%Z, Fin v) /\ (v < 3)%R /\ nth_error out' 0 = Some (1%Z, PInf).
Proof.
  intros Hs Hc. set (s' := [(0, (1 * 0 + 1)%R); (1, (1 * 0 + 1)%R); (2, (1 * 1 + 1)%R); (3, (1 * 3 + 1)%R)]%Z). change (rescale 1 1 ex_logs) with s'.
  assert (Hd : forall s0, s0 = ex_logs \/ s0 = s' -> exists out, dfc_run inv 1 s0 = Ok out).
  { intros s0 H0. apply c62_defined; auto. intros t H1 H2.
    destruct H0 as [->| ->]; cbn in H2; assert (t = 1 \/ t = 2) as [->| ->] by lia; unfold chow_sxx, level; cbn; lra. }
  destruct (Hd ex_logs (or_introl eq_refl)) as [out E]. destruct (Hd s' (or_intror eq_refl)) as [out' E'].
  destruct (c62 inv Hs 1 ex_logs out ltac:(cbn; lia) E) as [_ H]. destruct (c62 inv Hs 1 s' out' ltac:(cbn; lia) E') as [_ H'].
  destruct (H 0 ltac:(cbn; lia)) as (e & Hn & _ & He & _). destruct (H' 0 ltac:(cbn; lia)) as (e' & Hn' & _ & _ & He').
  cbn [Nat.add] in *.
  assert (X1 : chow_sxx ex_logs 1 = 1%R) by (unfold chow_sxx, level; cbn; lra).
  assert (X2 : chow_sxx s' 1 = 5%R) by (unfold chow_sxx, level; cbn; lra).
  assert (S1 : chow_slope ex_logs 1 = 2%R) by (unfold chow_slope; rewrite X1; unfold level, incr; cbn; field).
  assert (S2 : chow_slope s' 1 = 1%R) by (unfold chow_slope; rewrite X2; unfold level, incr; cbn; field).
  assert (Q1 : chow_sse ex_logs 1 = 1%R) by (unfold chow_sse; rewrite S1; unfold level, incr; cbn; lra).
  assert (Q2 : chow_sse s' 1 = 0%R) by (unfold chow_sse; rewrite S2; unfold level, incr; cbn; lra).
  exists out, out', (chow_t ex_logs 1). split; auto. split; auto. split; [rewrite Hn, He by (rewrite Q1; lra); reflexivity|]. split.
  - unfold chow_t. rewrite S1, Q1, X1. cbn [List.length ex_logs]. replace (INR 4) with 4%R by (cbn; lra).
    assert (2 / 3 < sqrt (1 / (4 - 2) / 1))%R.
    { rewrite <- (sqrt_square (2 / 3)) by lra. apply sqrt_lt_1; lra. }
    apply (Rmult_lt_reg_r (sqrt (1 / (4 - 2) / 1))); [lra|]. unfold Rdiv at 1. rewrite Rmult_assoc, Rinv_l by lra. lra.
  - rewrite Hn', He' by auto. rewrite S2. unfold asign. cbn [altb a0 Arith_R]. destruct (Rlt_dec 1 0); [lra|]. destruct (Rlt_dec 0 1); [reflexivity|lra].
Qed.
