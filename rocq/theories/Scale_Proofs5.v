(** SADF, Chow and CSW statistics of a series in another unit. *)
From Coq Require Import Reals Lra String.
From Verif Require Import PreludeFacts Series OLS_Model OLS_Spec OLS_Proofs OLS_TStat Break_Model Break_Spec Break_Proofs Break_Proofs2 Break_Proofs3 Break_Proofs4 Break_Proofs5 Scale_Spec3 Scale_Proofs4.
From Verif Require Trend_Spec.
Local Open Scope nat_scope.

Lemma vals_multiplied c s i : vals (multiplied c s) i = (c * vals s i)%R.
Proof.
  unfold vals, multiplied. rewrite map_map. cbn [snd]. rewrite <- (map_map snd (Rmult c)). replace 0%R with (c * 0)%R at 1 by ring. apply map_nth.
Qed.
Lemma fst_multiplied c s : map fst (multiplied c s) = map fst s.
Proof. unfold multiplied. now rewrite map_map. Qed.
Lemma length_multiplied c s : List.length (multiplied c s) = List.length s.
Proof. apply map_length. Qed.

Lemma nth_scaled_app (c : R) (a b : list R) j : nth j (map (Rmult c) a ++ b) 0%R = (nth j (a ++ b) 0 * (if Nat.ltb j (List.length a) then c else 1))%R.
Proof.
  destruct (Nat.ltb_spec j (List.length a)) as [H|H].
  - rewrite !app_nth1 by (rewrite ?map_length; lia). replace 0%R with (c * 0)%R at 1 by ring. rewrite (map_nth (Rmult c)). ring.
  - rewrite !app_nth2 by (rewrite ?map_length; lia). rewrite map_length. ring.
Qed.

Lemma list_ext' {A} (l l' : list A) : (forall i, nth_error l i = nth_error l' i) -> l = l'.
Proof.
  revert l'. induction l as [|x l IH]; intros [|y l'] H; auto; try (now specialize (H 0)). f_equal; [specialize (H 0); cbn in H; congruence|]. apply IH. intros i. exact (H (S i)).
Qed.

Lemma regressors_multiplied model lags const c x r : is_standard model = true -> exists a b,
  regressors model lags const x r = a ++ b /\ regressors model lags const (fun i => c * x i)%R r = map (Rmult c) a ++ b /\ List.length a = S lags.
Proof.
  intros H. unfold regressors. set (i := row_pos model lags r).
  set (a := x (i - 1) :: map (fun l => Rminus (x (i - l)) (x (i - l - 1))) (seq 1 lags)).
  assert (Ea : Rmult c (x (i - 1)) :: map (fun l => Rminus (c * x (i - l)%nat) (c * x (i - l - 1)%nat)) (seq 1 lags) = map (Rmult c) a).
  { unfold a. cbn [map]. f_equal. rewrite map_map. apply map_ext. intros l. ring. }
  assert (La : List.length a = S lags) by (unfold a; cbn [List.length]; now rewrite map_length, seq_length).
  unfold is_standard in H. destruct (String.eqb model "no_trend").
  { exists a, (if const then [1%R] else []). now rewrite <- Ea. }
  destruct (String.eqb model "linear").
  { exists a, ([INR (r + 1)] ++ (if const then [1%R] else [])). now rewrite <- Ea. }
  destruct (String.eqb model "quadratic"); [|discriminate].
  exists a, ([INR (r + 1); (INR (r + 1) * INR (r + 1))%R] ++ (if const then [1%R] else [])). now rewrite <- Ea.
Qed.
Lemma regressors_ext model lags const x x' r : (forall i, x i = x' i) -> regressors model lags const x r = regressors model lags const x' r.
Proof.
  intros H. unfold regressors. rewrite (H (row_pos model lags r - 1)).
  rewrite (map_ext (fun l => Rminus (x (row_pos model lags r - l)) (x (row_pos model lags r - l - 1))) (fun l => Rminus (x' (row_pos model lags r - l)) (x' (row_pos model lags r - l - 1)))) by (intros l; now rewrite !H).
  reflexivity.
Qed.
Lemma regressors_martingale model lags const x x' r : is_martingale model = true -> regressors model lags const x r = regressors model lags const x' r.
Proof.
  intros H. unfold regressors. unfold is_martingale in H.
  destruct (String.eqb_spec model "no_trend") as [->|]; [discriminate H|]. destruct (String.eqb_spec model "linear") as [->|]; [discriminate H|].
  destruct (String.eqb_spec model "quadratic") as [->|]; [discriminate H|]. reflexivity.
Qed.
Lemma martingale_not_standard model : is_martingale model = true -> is_standard model = false.
Proof.
  intros H. unfold is_martingale in H. unfold is_standard.
  destruct (String.eqb_spec model "no_trend") as [->|]; [discriminate H|]. destruct (String.eqb_spec model "linear") as [->|]; [discriminate H|].
  destruct (String.eqb_spec model "quadratic") as [->|]; [discriminate H|]. reflexivity.
Qed.
Lemma log_columns model lags const x r : needs_log model -> nth 1 (regressors model lags const x r) 0%R = 1%R /\ 1 < n_cols model lags const.
Proof.
  intros (H & N). unfold n_cols. unfold regressors. unfold is_martingale in H.
  destruct (String.eqb_spec model "no_trend") as [->|]; [discriminate H|]. destruct (String.eqb_spec model "linear") as [->|]; [discriminate H|].
  destruct (String.eqb_spec model "quadratic") as [->|]; [discriminate H|]. destruct (String.eqb_spec model "sm_poly_1") as [->|]; [congruence|].
  destruct (String.eqb model "sm_poly_2"); [cbn; split; [reflexivity|lia]|].
  destruct (String.eqb model "sm_exp"); (cbn; split; [reflexivity|lia]).
Qed.

Lemma windows_multiplied model lags const c s start stop : valid model lags -> c <> 0%R ->
  (needs_log model -> (0 < c)%R /\ Forall (fun v => (0 < v)%R) (map snd s)) -> stop <= n_rows model lags (List.length s) ->
  exists c' d e, c' <> 0%R /\ (forall j, d j <> 0%R) /\ e 0 = 0%R /\
    similar c' d e (X_of model lags const (vals s) start stop) (Y_of model lags (vals s) start stop)
      (X_of model lags const (vals (multiplied c s)) start stop) (Y_of model lags (vals (multiplied c s)) start stop) /\
    forall phi v, code_stat model phi start (c' / d 0%nat / Rabs (c' / d 0%nat) * v)%R = code_stat model phi start v.
Proof.
  intros HV Hc HL Hstop. destruct HV as [(HS & Hl)|HM].
  - exists c, (fun j => if Nat.ltb j (S lags) then c else 1%R), (fun _ => 0%R). split; [exact Hc|]. split; [intros j; destruct (Nat.ltb _ _); [exact Hc|lra]|].
    split; [reflexivity|]. split.
    + split; [reflexivity|]. split; [reflexivity|]. cbn [X_of Y_of nr nc at_]. split.
      * intros i j Hi Hj. destruct (regressors_multiplied model lags const c (vals s) (start + i) HS) as (a & b & E1 & E2 & La).
        rewrite E1, <- La, <- nth_scaled_app, <- E2. f_equal. apply regressors_ext. intros k. apply vals_multiplied.
      * intros i Hi. unfold response. rewrite HS, !vals_multiplied. rewrite (rsumn_zero _ (fun l => _ * 0)%R) by (intros; ring). ring.
    + intros phi v. cbn [Nat.ltb Nat.leb]. replace (c / c / Rabs (c / c) * v)%R with v; [reflexivity|]. replace (c / c)%R with 1%R by (field; exact Hc). rewrite Rabs_R1. field.
  - destruct (string_dec model "sm_poly_1") as [E|N].
    + exists c, (fun _ => 1%R), (fun _ => 0%R). split; [exact Hc|]. split; [intros; lra|]. split; [reflexivity|]. split.
      * split; [reflexivity|]. split; [reflexivity|]. cbn [X_of Y_of nr nc at_]. split.
        -- intros i j Hi Hj. rewrite (regressors_martingale model lags const (vals (multiplied c s)) (vals s)) by exact HM. ring.
        -- intros i Hi. unfold response. rewrite (martingale_not_standard _ HM). destruct (String.eqb_spec model "sm_poly_1") as [_|]; [|contradiction]. rewrite vals_multiplied.
           rewrite (rsumn_zero _ (fun l => _ * 0)%R) by (intros; ring). unfold row_pos. ring.
      * intros phi v. unfold code_stat. rewrite HM. f_equal. unfold Rdiv. rewrite Rinv_1, Rmult_1_r, !Rabs_mult, Rabs_inv, Rabs_Rabsolu. field. now apply Rabs_no_R0.
    + destruct (HL (conj HM N)) as (Hp & HF). exists 1%R, (fun _ => 1%R), (fun j => if Nat.eqb j 1 then ln c else 0%R). split; [lra|]. split; [intros; lra|]. split; [reflexivity|]. split.
      * split; [reflexivity|]. split; [reflexivity|]. cbn [X_of Y_of nr nc at_]. split.
        -- intros i j Hi Hj. rewrite (regressors_martingale model lags const (vals (multiplied c s)) (vals s)) by exact HM. ring.
        -- intros i Hi. destruct (log_columns model lags const (vals s) (start + i) (conj HM N)) as (E1 & Hn).
           rewrite (rsumn_ext _ _ (fun l => delta l 1 * (nth 1 (regressors model lags const (vals s) (start + i)) 0 * ln c))%R).
           2:{ intros l _. unfold delta. destruct (Nat.eqb_spec l 1) as [->|]; ring. }
           rewrite rsumn_delta by exact Hn. rewrite E1. unfold response. rewrite (martingale_not_standard _ HM).
           destruct (String.eqb_spec model "sm_poly_1") as [|_]; [contradiction|]. rewrite vals_multiplied, ln_mult; [ring|exact Hp|].
           unfold row_pos. unfold n_rows in Hstop. rewrite (martingale_not_standard _ HM) in *. unfold vals. rewrite Forall_forall in HF. apply HF, nth_In. rewrite map_length. lia.
      * intros phi v. unfold code_stat. f_equal. replace (1 / 1)%R with 1%R by field. rewrite Rabs_R1. replace (1 / 1 * v)%R with v by field. reflexivity.
Qed.

Lemma multiplied_back c s : c <> 0%R -> multiplied (/ c) (multiplied c s) = s.
Proof.
  intros Hc. unfold multiplied. rewrite map_map. rewrite <- (map_id s) at 2. apply map_ext. intros [t v]. cbn. f_equal. field. exact Hc.
Qed.
Lemma snd_multiplied c s : map snd (multiplied c s) = map (Rmult c) (map snd s).
Proof. unfold multiplied. now rewrite !map_map. Qed.
Lemma positive_multiplied c s : (0 < c)%R -> Forall (fun v => (0 < v)%R) (map snd s) -> Forall (fun v => (0 < v)%R) (map snd (multiplied c s)).
Proof.
  intros Hc H. rewrite snd_multiplied. apply Forall_map. revert H. apply Forall_impl. intros v Hv. now apply Rmult_lt_0_compat.
Qed.

Section Sadf.
  Variable inv : mat -> result mat.
  Hypothesis Hs : inv_sound inv.
  Variables (model : string) (lags m : nat) (const : bool) (phi : R).
  Hypothesis HV : valid model lags.
  Hypothesis Hm : n_cols model lags const < m.
  Hypothesis Hcpl : inv_complete (n_cols model lags const) inv.

  Lemma largest_unique (P : nat -> R -> Prop) stop v v' : (forall st u u', P st u -> P st u' -> u = u') -> largest_over_starts P m stop v -> largest_over_starts P m stop v' -> v = v'.
  Proof.
    intros F ((a & Ha & Pa) & H) ((a' & Ha' & Pa') & H').
    destruct (H a' Ha') as (u & Pu & Hu). rewrite (F _ _ _ Pu Pa') in Hu.
    destruct (H' a Ha) as (u' & Pu' & Hu'). rewrite (F _ _ _ Pu' Pa) in Hu'. lra.
  Qed.

  Lemma sadf_one c s out : c <> 0%R -> (needs_log model -> (0 < c)%R) ->
    sadf_run inv model lags m const phi s = Ok out -> sadf_run inv model lags m const phi (multiplied c s) = Ok out.
  Proof.
    intros Hc HL H. destruct (proj1 (c46_defined inv Hs model lags m const phi HV s Hm Hcpl) (ex_intro _ out H)) as (Hrows & Hpos & Hdeg).
    assert (HL' : needs_log model -> (0 < c)%R /\ Forall (fun v => (0 < v)%R) (map snd s)) by (intros N; split; [now apply HL|destruct N; now apply Hpos]).
    assert (exists out', sadf_run inv model lags m const phi (multiplied c s) = Ok out') as [out' H'].
    { apply (proj2 (c46_defined inv Hs model lags m const phi HV (multiplied c s) Hm Hcpl)). rewrite length_multiplied. split; [exact Hrows|]. split.
      - intros M N. apply positive_multiplied; [now apply HL|now apply Hpos].
      - intros start stop H1 H2 D. destruct (windows_multiplied model lags const c s start stop HV Hc HL' ltac:(lia)) as (c' & d & e & Hc' & Hd & He & HS & _).
        apply (Hdeg start stop H1 H2). now apply (degenerate_similar c' d e _ _ _ _ Hc' Hd HS). }
    rewrite H'. f_equal.
    destruct (c46 inv Hs model lags m const phi HV s out Hm H) as (_ & L & Hq).
    destruct (c46 inv Hs model lags m const phi HV _ out' Hm H') as (_ & L' & Hq'). rewrite length_multiplied in L', Hq'.
    apply list_ext'. intros q. destruct (Nat.lt_ge_cases (m + q) (n_rows model lags (List.length s))) as [Lt|Ge].
    2:{ assert (nth_error out q = None) as -> by (apply nth_error_None; lia). apply nth_error_None. lia. }
    destruct (Hq q Lt) as (v & -> & HM). destruct (Hq' q Lt) as (v' & -> & HM'). rewrite fst_multiplied. do 3 f_equal.
    symmetry. revert HM HM'.
    set (P := fun start u => exists t, t_stat (X_of model lags const (vals s) start (m + q + 1)) (Y_of model lags (vals s) start (m + q + 1)) t /\ u = code_stat model phi start t).
    set (P' := fun start u => exists t, t_stat (X_of model lags const (vals (multiplied c s)) start (m + q + 1)) (Y_of model lags (vals (multiplied c s)) start (m + q + 1)) t /\ u = code_stat model phi start t).
    assert (I : forall st u, P st u -> P' st u).
    { intros st u (t & Ht & ->). destruct (windows_multiplied model lags const c s st (m + q + 1) HV Hc HL' ltac:(lia)) as (c' & d & e & Hc' & Hd & He & HS & Hcode).
      exists (c' / d 0%nat / Rabs (c' / d 0%nat) * t)%R. split; [now apply (t_stat_similar c' d e _ _ _ _ Hc' Hd HS)|now rewrite Hcode]. }
    intros ((a & Ha & Pa) & HA) HM'. refine (largest_unique P' _ v v' _ _ HM').
    - intros st u u' (t & Ht & ->) (t' & Ht' & ->). f_equal. refine (t_stat_unique _ _ _ _ _ Ht Ht'); exact (n_cols_pos model lags const).
    - split; [exists a; auto|]. intros st Hst. destruct (HA st Hst) as (u & Pu & Hu). exists u. auto.
  Qed.

  Theorem sadf_units c s out : c <> 0%R -> (needs_log model -> (0 < c)%R) ->
    (sadf_run inv model lags m const phi (multiplied c s) = Ok out <-> sadf_run inv model lags m const phi s = Ok out).
  Proof.
    intros Hc HL. split; [|now apply sadf_one]. intros H. rewrite <- (multiplied_back c s Hc). apply sadf_one; [now apply Rinv_neq_0_compat|intros N; now apply Rinv_0_lt_compat, HL|exact H].
  Qed.
End Sadf.

(** ** Chow *)
Lemma level_multiplied c s t i : level (multiplied c s) t i = (c * level s t i)%R.
Proof. unfold level. destruct (Nat.ltb i t); [ring|]. exact (vals_multiplied c s i). Qed.
Lemma incr_multiplied c s i : incr (multiplied c s) i = (c * incr s i)%R.
Proof. unfold incr. pose proof (vals_multiplied c s) as H. unfold vals in H. rewrite !H. ring. Qed.
Lemma chow_sxx_multiplied c s t : chow_sxx (multiplied c s) t = (c * c * chow_sxx s t)%R.
Proof. unfold chow_sxx. rewrite length_multiplied, <- rsumn_scal. apply rsumn_ext. intros i _. rewrite !level_multiplied. ring. Qed.
Lemma chow_slope_multiplied c s t : c <> 0%R -> chow_slope (multiplied c s) t = chow_slope s t.
Proof.
  intros Hc. unfold chow_slope. rewrite chow_sxx_multiplied, length_multiplied.
  rewrite (rsumn_ext _ (fun i => level (multiplied c s) t i * incr (multiplied c s) i)%R (fun i => c * c * (level s t i * incr s i))%R) by (intros; rewrite level_multiplied, incr_multiplied; ring).
  rewrite rsumn_scal. unfold Rdiv. rewrite !Rinv_mult. set (q := (/ chow_sxx s t)%R). field. exact Hc.
Qed.
Lemma chow_sse_multiplied c s t : c <> 0%R -> chow_sse (multiplied c s) t = (c * c * chow_sse s t)%R.
Proof.
  intros Hc. unfold chow_sse. rewrite length_multiplied, <- rsumn_scal. apply rsumn_ext. intros i _. rewrite chow_slope_multiplied, level_multiplied, incr_multiplied by exact Hc. ring.
Qed.
Lemma chow_t_multiplied c s t : c <> 0%R -> chow_t (multiplied c s) t = chow_t s t.
Proof.
  intros Hc. unfold chow_t. rewrite chow_slope_multiplied, chow_sse_multiplied, chow_sxx_multiplied, length_multiplied by exact Hc. do 2 f_equal.
  unfold Rdiv. rewrite !Rinv_mult. set (q := (/ chow_sxx s t)%R). set (r := (/ (INR (List.length s) - 2))%R). field. exact Hc.
Qed.

Lemma chow_one inv m c s out : inv_sound inv -> inv_complete 1 inv -> c <> 0%R -> 3 <= List.length s ->
  dfc_run inv m s = Ok out -> dfc_run inv m (multiplied c s) = Ok out.
Proof.
  intros Hs Hcpl Hc Hlen H.
  assert (exists out', dfc_run inv m (multiplied c s) = Ok out') as [out' H'].
  { apply (proj2 (c62_defined inv Hs m (multiplied c s) Hcpl)). rewrite length_multiplied. intros t H1 H2. rewrite chow_sxx_multiplied.
    pose proof (proj1 (c62_defined inv Hs m s Hcpl) (ex_intro _ out H) t H1 H2) as N. intros Z. apply Rmult_integral in Z. destruct Z as [Z|Z]; [apply Rmult_integral in Z; tauto|contradiction]. }
  rewrite H'. f_equal. destruct (c62 inv Hs m s out Hlen H) as (L & Hq). destruct (c62 inv Hs m _ out' ltac:(rewrite length_multiplied; exact Hlen) H') as (L' & Hq'). rewrite length_multiplied in L', Hq'.
  apply list_ext'. intros q. destruct (Nat.lt_ge_cases q (List.length s - m - m)) as [Lt|Ge].
  2:{ assert (nth_error out q = None) as -> by (apply nth_error_None; lia). apply nth_error_None. lia. }
  destruct (Hq q Lt) as (e & -> & S & A & B). destruct (Hq' q Lt) as (e' & -> & S' & A' & B'). rewrite fst_multiplied. do 2 f_equal.
  rewrite chow_sse_multiplied, chow_t_multiplied in A' by exact Hc. rewrite chow_sse_multiplied, chow_slope_multiplied in B' by exact Hc.
  assert (P : (0 <= chow_sse s (m + q))%R) by (apply rsumn_nonneg; intros; exact (Rle_0_sqr _)).
  destruct (Rle_lt_or_eq_dec _ _ P) as [P1|P1].
  - rewrite A by exact P1. apply A'. apply Rmult_lt_0_compat; [|exact P1]. destruct (Rtotal_order c 0) as [|[|]]; nra.
  - rewrite B by now symmetry. apply B'. rewrite <- P1. ring.
Qed.
Theorem chow_units inv m c s out : inv_sound inv -> inv_complete 1 inv -> c <> 0%R -> 3 <= List.length s ->
  (dfc_run inv m (multiplied c s) = Ok out <-> dfc_run inv m s = Ok out).
Proof.
  intros Hs Hcpl Hc Hlen. split; [|now apply chow_one]. intros H. rewrite <- (multiplied_back c s Hc).
  apply chow_one; auto; [now apply Rinv_neq_0_compat|now rewrite length_multiplied].
Qed.

(** ** Chu-Stinchcombe-White: also a constant may be added *)

Lemma departure_affine a b d x y : departure d (a * x + b) (a * y + b) = (Rabs a * departure (turned a d) x y)%R.
Proof.
  unfold turned, departure, Rabs. destruct (Rlt_dec a 0) as [H|H], (Rcase_abs a) as [G|G]; try lra; destruct d; try ring.
  - unfold Rmax. destruct (Rle_dec _ _), (Rle_dec _ _); nra.
  - unfold Rmax. destruct (Rle_dec _ _), (Rle_dec _ _); nra.
Qed.
Lemma nth_affine a b ys j : j < List.length ys -> nth j (map (fun v => (a * v + b)%R) ys) 0%R = (a * nth j ys 0 + b)%R.
Proof.
  intros H. rewrite (nth_indep _ 0%R (a * 0 + b)%R) by now rewrite map_length. exact (map_nth (fun v => (a * v + b)%R) ys 0%R j).
Qed.
Lemma sqrt_scale a x : sqrt (a * a * x) = (Rabs a * sqrt x)%R.
Proof. rewrite sqrt_mult_alt by exact (Rle_0_sqr a). now rewrite <- sqrt_Rsqr_abs. Qed.
Lemma ediv_scale a x z : a <> 0%R -> ediv (Fin (Rabs a * x)%R) (esqrt (Fin (a * a * z)%R)) = ediv (Fin x) (esqrt (Fin z)).
Proof.
  intros Ha. pose proof (Rabs_pos_lt a Ha) as P. assert (PP : (0 < a * a)%R) by (destruct (Rtotal_order a 0) as [|[|]]; nra). cbn [esqrt]. destruct (Rlt_dec z 0) as [H|H].
  - destruct (Rlt_dec (a * a * z) 0) as [|N]; [reflexivity|exfalso; apply N; nra].
  - destruct (Rlt_dec (a * a * z) 0) as [N|_]; [exfalso; nra|]. rewrite sqrt_scale. cbn [ediv aeqb Arith_R a0].
    destruct (Req_EM_T (sqrt z) 0) as [->|N].
    + destruct (Req_EM_T (Rabs a * 0) 0) as [_|N]; [|exfalso; apply N; ring]. f_equal. unfold asign. cbn.
      destruct (Rlt_dec x 0), (Rlt_dec (Rabs a * x) 0); auto; try (exfalso; nra). destruct (Rlt_dec 0 x), (Rlt_dec 0 (Rabs a * x)); auto; exfalso; nra.
    + destruct (Req_EM_T (Rabs a * sqrt z) 0) as [E|_]; [exfalso; apply Rmult_integral in E; destruct E; lra|]. unfold adiv. cbn. f_equal. field. split; lra.
Qed.
Lemma csw_at_affine a b d ys t : a <> 0%R -> 2 <= t <= List.length ys ->
  csw_at (side_name d) (map (fun v => (a * v + b)%R) ys) t = csw_at (side_name (turned a d)) ys t.
Proof.
  intros Ha Ht. unfold csw_at. cbv zeta.
  rewrite (rsumn_ext (t - 1) _ (fun i => a * a * ((nth (i + 1) ys 0 - nth i ys 0) * (nth (i + 1) ys 0 - nth i ys 0)))%R) by (intros i Hi; rewrite !nth_affine by lia; ring).
  rewrite rsumn_scal, nth_affine by lia. set (S := rsumn _ _).
  assert (G : forall l best, (forall j, In j l -> j < t - 1) ->
    fold_left (csw_inner (side_name d) (map (fun v => (a * v + b)%R) ys) t (a * a * S / INR (t - 1)) (a * nth (t - 1) ys 0 + b)%R) l best =
    fold_left (csw_inner (side_name (turned a d)) ys t (S / INR (t - 1)) (nth (t - 1) ys 0%R)) l best).
  { induction l as [|j l IH]; intros best Hl; [reflexivity|]. cbn [fold_left]. rewrite <- IH by (intros; apply Hl; now right). f_equal.
    unfold csw_inner. cbv zeta. rewrite nth_affine by (specialize (Hl j (or_introl eq_refl)); lia). rewrite !diff_departure, departure_affine.
    replace (a * a * S / INR (t - 1) * INR (t - (j + 1)))%R with (a * a * (S / INR (t - 1) * INR (t - (j + 1))))%R by (unfold Rdiv; ring). now rewrite ediv_scale. }
  apply G. intros j Hj. apply in_seq in Hj. lia.
Qed.
Theorem csw_affine a b d s : a <> 0%R -> csw_run (side_name d) (Trend_Spec.affine a b s) = csw_run (side_name (turned a d)) s.
Proof.
  intros Ha. unfold csw_run, Trend_Spec.affine. rewrite map_map, !map_length. cbn [fst]. f_equal.
  rewrite map_map. cbn [snd]. rewrite <- (map_map snd (fun v => (a * v + b)%R)). apply map_ext_in. intros t Ht. apply in_seq in Ht. apply csw_at_affine; [exact Ha|]. rewrite map_length. lia.
Qed.
