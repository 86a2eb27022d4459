(** Proofs for the Chu-Stinchcombe-White and the Chow-type Dickey-Fuller tests. *)
From Coq Require Import Reals Lra String.
From Verif Require Import PreludeFacts Series Boot_Proofs Label_Proofs2 OLS_Model OLS_Spec OLS_Proofs OLS_Proofs2 Break_Model Break_Spec OLS_TStat.
Local Open Scope nat_scope.

Lemma diff_departure d a b : get_y_t_y_n_diff (side_name d) a b = departure d a b.
Proof.
  destruct d; cbn; auto. unfold Rabs, Rmax. destruct (Rcase_abs (a - b)), (Rle_dec (a - b) (b - a)); lra.
Qed.

Lemma sigma2_nonneg s t : 2 <= t -> (0 <= sigma2 s t)%R.
Proof.
  intros Ht. unfold sigma2. apply Rmult_le_pos.
  - apply rsumn_nonneg. intros i _. cbn. rewrite Rmult_1_r. exact (Rle_0_sqr _).
  - left. apply Rinv_0_lt_compat. apply lt_0_INR. lia.
Qed.
Lemma sigma2_pos s t : 2 <= t -> ~ flat s t -> (0 < sigma2 s t)%R.
Proof.
  intros Ht Hf. destruct (Rle_lt_or_eq_dec _ _ (sigma2_nonneg s t Ht)) as [|E]; auto. exfalso. apply Hf. intros i Hi.
  unfold sigma2 in E. symmetry in E. apply Rmult_integral in E as [E|E].
  2:{ assert (0 < / INR (t - 1))%R by (apply Rinv_0_lt_compat, lt_0_INR; lia). lra. }
  assert (Hsq : forall i, i < t - 1 -> (0 <= (obs s (i + 2) - obs s (i + 1)) ^ 2)%R) by (intros j _; cbn; rewrite Rmult_1_r; exact (Rle_0_sqr _)).
  pose proof (rsumn_zero_inv _ _ Hsq E (i - 1) ltac:(lia)) as E1. cbn in E1. rewrite Rmult_1_r in E1. apply Rmult_integral in E1.
  replace (i - 1 + 2) with (i + 1) in E1 by lia. replace (i - 1 + 1) with i in E1 by lia. lra.
Qed.
Lemma sigma2_flat s t : flat s t -> sigma2 s t = 0%R.
Proof.
  intros Hf. unfold sigma2. rewrite rsumn_zero; [lra|]. intros i Hi. replace (i + 2) with (i + 1 + 1) by lia. rewrite (Hf (i + 1)) by lia. ring.
Qed.

Lemma csw_at_unfold d s t : 2 <= t -> csw_at (side_name d) (map snd s) t =
  fold_left (csw_inner (side_name d) (map snd s) t (sigma2 s t) (obs s t)) (seq 0 (t - 1)) (NInf, NaN).
Proof.
  intros Ht. unfold csw_at. f_equal. f_equal. unfold sigma2. f_equal. apply rsumn_ext. intros i Hi. unfold obs.
  replace (i + 2 - 1) with (i + 1) by lia. replace (i + 1 - 1) with i by lia. ring.
Qed.

Lemma critical_value k : 1 <= k -> esqrt (eadd (Fin (46 / 10)%R) (elog (Fin (INR k)))) = Fin (sqrt (46 / 10 + ln (INR k))).
Proof.
  intros Hk. assert (1 <= INR k)%R by (replace 1%R with (INR 1) by reflexivity; apply le_INR; lia).
  unfold elog. destruct (Rlt_dec 0 (INR k)); [|lra]. cbn [eadd aadd Arith_R esqrt].
  assert (0 <= ln (INR k))%R by (rewrite <- ln_1; destruct (Req_dec (INR k) 1) as [->|]; [lra|left; apply ln_increasing; lra]).
  destruct (Rlt_dec (46 / 10 + ln (INR k)) 0); [lra|reflexivity].
Qed.

Lemma csw_inner_value d s t best j : 2 <= t -> ~ flat s t -> j < t - 1 ->
  csw_inner (side_name d) (map snd s) t (sigma2 s t) (obs s t) best j =
  if eltb (fst best) (Fin (csw d s t (j + 1))) then (Fin (csw d s t (j + 1)), Fin (sqrt (46 / 10 + ln (INR (t - (j + 1)))))) else best.
Proof.
  intros Ht Hf Hj. unfold csw_inner. rewrite critical_value by lia. rewrite diff_departure.
  pose proof (sigma2_pos s t Ht Hf) as Hp. assert (0 < INR (t - (j + 1)))%R as Hi by (apply lt_0_INR; lia).
  assert (Hm : (0 < sigma2 s t * INR (t - (j + 1)))%R) by now apply Rmult_lt_0_compat.
  cbn [esqrt]. destruct (Rlt_dec (sigma2 s t * INR (t - (j + 1))) 0); [lra|].
  pose proof (sqrt_lt_R0 _ Hm) as Hsq. unfold ediv. cbn [aeqb Arith_R a0]. destruct (Req_EM_T (sqrt (sigma2 s t * INR (t - (j + 1)))) 0); [lra|].
  change (nth j (map snd s) 0%R) with (nth j (map snd s) 0%R).
  assert (adiv (departure d (obs s t) (nth j (map snd s) 0%R)) (sqrt (sigma2 s t * INR (t - (j + 1)))) = csw d s t (j + 1)) as ->; [|reflexivity].
  unfold csw, adiv. cbn [amul ainv Arith_R]. rewrite sqrt_mult by lra. unfold obs at 3. replace (j + 1 - 1) with j by lia. reflexivity.
Qed.

Lemma csw_fold d s t k : 2 <= t -> ~ flat s t -> 1 <= k <= t - 1 ->
  exists n, 1 <= n <= k /\
    fold_left (csw_inner (side_name d) (map snd s) t (sigma2 s t) (obs s t)) (seq 0 k) (NInf, NaN) =
      (Fin (csw d s t n), Fin (sqrt (46 / 10 + ln (INR (t - n))))) /\
    forall n', 1 <= n' <= k -> (csw d s t n' <= csw d s t n)%R /\ (n' < n -> (csw d s t n' < csw d s t n)%R).
Proof.
  intros Ht Hf Hk. induction k as [|k IH]; [lia|]. rewrite seq_S, fold_left_app. cbn [fold_left]. rewrite Nat.add_0_l.
  rewrite csw_inner_value by (auto; lia).
  destruct k as [|k].
  - cbn [seq fold_left fst eltb]. exists 1. split; [lia|]. split; [reflexivity|]. intros n' Hn'. assert (n' = 1) as -> by lia. split; [lra|lia].
  - destruct IH as (n & Hn & -> & Hmax); [lia|]. cbn [fst eltb altb Arith_R].
    destruct (Rlt_dec (csw d s t n) (csw d s t (S k + 1))) as [Hlt|Hge].
    + exists (S k + 1). split; [lia|]. split; [reflexivity|]. intros n' Hn'. destruct (Nat.eq_dec n' (S k + 1)) as [->|]; [split; [lra|lia]|].
      destruct (Hmax n' ltac:(lia)). split; lra.
    + exists n. split; [lia|]. split; [reflexivity|]. intros n' Hn'. destruct (Nat.eq_dec n' (S k + 1)) as [->|]; [split; [lra|lia]|].
      apply Hmax. lia.
Qed.

Lemma csw_run_nth d s k : k < List.length s - 1 ->
  exists x, nth_error s (k + 1) = Some x /\
    nth_error (csw_run (side_name d) s) k = Some (fst x, csw_at (side_name d) (map snd s) (k + 2)).
Proof.
  intros Hk. destruct (nth_error s (k + 1)) as [x|] eqn:E; [|apply nth_error_None in E; lia]. exists x. split; auto.
  unfold csw_run. apply nth_error_combine.
  - destruct s as [|x0 s]; [cbn in Hk; lia|]. cbn [map skipn]. rewrite nth_error_map.
    rewrite Nat.add_1_r in E. cbn in E. now rewrite E.
  - rewrite nth_error_map, nth_error_seq' by lia. now rewrite (Nat.add_comm 2 k).
Qed.

Lemma c44_rows d s : map fst (csw_run (side_name d) s) = skipn 1 (map fst s).
Proof.
  unfold csw_run. assert (Hl : List.length (skipn 1 (map fst s)) = List.length (map (csw_at (side_name d) (map snd s)) (seq 2 (List.length s - 1)))).
  { rewrite skipn_length, !map_length, seq_length. lia. }
  revert Hl. generalize (skipn 1 (map fst s)) as a. generalize (map (csw_at (side_name d) (map snd s)) (seq 2 (List.length s - 1))) as b.
  intros b a. revert b. induction a as [|x a IH]; intros [|y b] Hl; cbn in *; auto; try lia. f_equal. apply IH. lia.
Qed.

Lemma c44_sup d s k row : nth_error (csw_run (side_name d) s) k = Some row -> ~ flat s (k + 2) ->
  exists n, 1 <= n < k + 2 /\ snd row = (Fin (csw d s (k + 2) n), Fin (sqrt (46 / 10 + ln (INR (k + 2 - n))))) /\
    forall n', 1 <= n' < k + 2 -> (csw d s (k + 2) n' <= csw d s (k + 2) n)%R /\ (n' < n -> (csw d s (k + 2) n' < csw d s (k + 2) n)%R).
Proof.
  intros H Hf.
  assert (Hk : k < List.length s - 1).
  { assert (nth_error (map fst (csw_run (side_name d) s)) k <> None) as Hn by (rewrite nth_error_map, H; discriminate).
    rewrite c44_rows in Hn. apply nth_error_Some in Hn. rewrite skipn_length, map_length in Hn. exact Hn. }
  destruct (csw_run_nth d s k Hk) as (x & _ & E). rewrite E in H. injection H as <-. cbn [snd].
  rewrite csw_at_unfold by lia. replace (k + 2 - 1) with (k + 1) by lia.
  destruct (csw_fold d s (k + 2) (k + 1) ltac:(lia) Hf ltac:(lia)) as (n & Hn & Ef & Hmax).
  exists n. split; [lia|]. split; [exact Ef|]. intros n' Hn'. apply Hmax. lia.
Qed.

Lemma c44_flat d s k row : nth_error (csw_run (side_name d) s) k = Some row -> flat s (k + 2) -> snd row = (NInf, NaN).
Proof.
  intros H Hf.
  assert (Hk : k < List.length s - 1).
  { assert (nth_error (map fst (csw_run (side_name d) s)) k <> None) as Hn by (rewrite nth_error_map, H; discriminate).
    rewrite c44_rows in Hn. apply nth_error_Some in Hn. rewrite skipn_length, map_length in Hn. exact Hn. }
  destruct (csw_run_nth d s k Hk) as (x & _ & E). rewrite E in H. injection H as <-. cbn [snd].
  rewrite csw_at_unfold by lia. rewrite sigma2_flat by auto.
  assert (Heq : forall i, 1 <= i <= k + 2 -> obs s i = obs s 1).
  { intros i Hi. induction i as [|i IH]; [lia|]. destruct (Nat.eq_dec i 0) as [->|]; auto. rewrite <- Nat.add_1_r, (Hf i) by lia. apply IH. lia. }
  assert (forall l, (forall j, In j l -> j < k + 1) -> fold_left (csw_inner (side_name d) (map snd s) (k + 2) 0 (obs s (k + 2))) l (NInf, NaN) = (NInf, NaN)) as HF.
  { induction l as [|j l IH]; intros Hl; auto. cbn [fold_left].
    assert (csw_inner (side_name d) (map snd s) (k + 2) 0 (obs s (k + 2)) (NInf, NaN) j = (NInf, NaN)) as ->; [|apply IH; intros; apply Hl; now right].
    unfold csw_inner. rewrite diff_departure, Rmult_0_l. cbn [esqrt]. destruct (Rlt_dec 0 0); [lra|]. rewrite sqrt_0.
    assert (departure d (obs s (k + 2)) (nth j (map snd s) 0%R) = 0%R) as ->.
    { specialize (Hl j (or_introl eq_refl)). assert (nth j (map snd s) 0%R = obs s (j + 1)) as -> by (unfold obs; f_equal; lia).
      rewrite (Heq (k + 2)), (Heq (j + 1)) by lia. destruct d; cbn [departure]; try lra. rewrite Rmax_left; lra. }
    cbn [ediv aeqb Arith_R a0]. destruct (Req_EM_T 0 0); [|lra]. unfold asign, signed_inf. cbn [altb Arith_R a0]. destruct (Rlt_dec 0 0); [lra|]. reflexivity. }
  apply HF. intros j Hj. apply in_seq in Hj. lia.
Qed.

Lemma csw_two s t n : 2 <= t -> ~ flat s t -> 1 <= n < t -> csw TwoSided s t n = Rmax (csw Positive s t n) (csw Negative s t n).
Proof.
  intros Ht Hf Hn. unfold csw. cbn [departure].
  assert (0 < / (sqrt (sigma2 s t) * sqrt (INR (t - n))))%R as Hp.
  { apply Rinv_0_lt_compat, Rmult_lt_0_compat; apply sqrt_lt_R0; [now apply sigma2_pos|apply lt_0_INR; lia]. }
  unfold Rdiv. set (q := (/ _)%R) in *. unfold Rmax.
  destruct (Rle_dec (obs s t - obs s n) (obs s n - obs s t)), (Rle_dec ((obs s t - obs s n) * q) ((obs s n - obs s t) * q)); try nra.
Qed.

Lemma c44_two s k rp rn rt : ~ flat s (k + 2) ->
  nth_error (csw_run (side_name Positive) s) k = Some rp ->
  nth_error (csw_run (side_name Negative) s) k = Some rn ->
  nth_error (csw_run (side_name TwoSided) s) k = Some rt ->
  exists vp vn, fst (snd rp) = Fin vp /\ fst (snd rn) = Fin vn /\ fst (snd rt) = Fin (Rmax vp vn).
Proof.
  intros Hf Hp Hn Ht.
  destruct (c44_sup _ s k _ Hp Hf) as (np & Hnp & Ep & Mp). destruct (c44_sup _ s k _ Hn Hf) as (nn & Hnn & En & Mn).
  destruct (c44_sup _ s k _ Ht Hf) as (nt & Hnt & Et & Mt). rewrite Ep, En, Et. cbn [fst]. do 2 eexists. split; [reflexivity|]. split; [reflexivity|].
  f_equal. apply Rle_antisym.
  - rewrite (csw_two s (k + 2) nt) by (auto; lia). apply Rmax_lub.
    + eapply Rle_trans; [apply (Mp nt Hnt)|apply Rmax_l].
    + eapply Rle_trans; [apply (Mn nt Hnt)|apply Rmax_r].
  - apply Rmax_lub.
    + eapply Rle_trans; [|apply (Mt np Hnp)]. rewrite csw_two by (auto; lia). apply Rmax_l.
    + eapply Rle_trans; [|apply (Mt nn Hnn)]. rewrite csw_two by (auto; lia). apply Rmax_r.
Qed.

(** No look-ahead *)
Lemma csw_at_prefix d (ys zs : list R) t : 2 <= t -> (forall i, i < t -> nth i ys 0%R = nth i zs 0%R) ->
  csw_at d ys t = csw_at d zs t.
Proof.
  intros Ht H. unfold csw_at. rewrite (H (t - 1)) by lia.
  rewrite (rsumn_ext (t - 1) (fun i => (nth (i + 1) ys 0 - nth i ys 0) * (nth (i + 1) ys 0 - nth i ys 0))%R
     (fun i => (nth (i + 1) zs 0 - nth i zs 0) * (nth (i + 1) zs 0 - nth i zs 0))%R) by (intros i Hi; now rewrite (H i), (H (i + 1)) by lia).
  set (sg := (rsumn _ _ / _)%R). set (yt := nth (t - 1) zs 0%R).
  assert (forall l best, (forall j, In j l -> j < t) -> fold_left (csw_inner d ys t sg yt) l best = fold_left (csw_inner d zs t sg yt) l best) as HF.
  { induction l as [|j l IH]; intros best Hl; auto. cbn [fold_left].
    assert (csw_inner d ys t sg yt best j = csw_inner d zs t sg yt best j) as ->; [|apply IH; intros; apply Hl; now right].
    unfold csw_inner. rewrite (H j) by (apply Hl; now left). reflexivity. }
  apply HF. intros j Hj. apply in_seq in Hj. lia.
Qed.

Lemma map_firstn' {A B} (f : A -> B) n l : map f (firstn n l) = firstn n (map f l).
Proof. revert n. induction l; intros [|n]; cbn; auto. now rewrite IHl. Qed.
Lemma combine_firstn_eq {A B} n (a : list A) (b : list B) : firstn n (combine a b) = combine (firstn n a) (firstn n b).
Proof. revert n b. induction a; intros [|n] [|y b]; cbn; auto. now rewrite IHa. Qed.

Lemma nth_firstn_lt {A} (d : A) l w i : i < w -> nth i (firstn w l) d = nth i l d.
Proof. revert w i. induction l as [|x l IH]; intros [|w] [|i] H; cbn; auto; try lia. apply IH. lia. Qed.

Lemma c44_causal d s m : 1 <= m <= List.length s -> csw_run d (firstn m s) = firstn (m - 1) (csw_run d s).
Proof.
  intros Hm. unfold csw_run. rewrite combine_firstn_eq. f_equal.
  - rewrite map_firstn'. destruct m as [|m]; [lia|]. rewrite Nat.sub_succ, Nat.sub_0_r. destruct (map fst s); [now rewrite !firstn_nil|reflexivity].
  - rewrite firstn_length_le by lia. rewrite map_firstn'.
    assert (forall k n, k <= n -> firstn k (seq 2 n) = seq 2 k) as Hs.
    { generalize 2. intros a k. revert a. induction k; intros a [|n] Hkn; cbn; auto; try lia. f_equal. apply IHk. lia. }
    rewrite <- (map_firstn' (csw_at d (map snd s))). rewrite Hs by lia. apply map_ext_in. intros t Ht. apply in_seq in Ht.
    apply csw_at_prefix; [lia|]. intros i Hi. apply nth_firstn_lt. lia.
Qed.
