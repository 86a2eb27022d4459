(** C101, continued: wider scans never report less. [inv] is the matrix inverse used by the regressions ([inv_small] in
    Trend_Spec.v meets the assumptions on it). *)
From Coq Require Import Reals Lra Lia ZArith String.
From Verif Require Import PreludeFacts Series OLS_Model OLS_Spec OLS_Proofs OLS_Proofs2 Trend_Model Trend_Spec Trend_Proofs3 Trend_Proofs4
  Break_Model Break_Spec Break_Proofs4 Break_Proofs5 Break_Proofs6 Break_Cases Stricter_Proofs5.
Local Open Scope nat_scope.

(** Trend scanning over more windows (a longer look-forward window, a shorter minimum) never lowers the size of the
    t-value of an event; a scan that still has a value with the longer window has one with the shorter. *)
Theorem C101_trend : forall inv, inv_sound inv -> inv_complete 2 inv -> forall cfg cfg', t_step cfg = 1 -> t_step cfg' = 1 ->
  3 <= t_min cfg < t_window cfg -> 3 <= t_min cfg' < t_window cfg' -> t_min cfg' <= t_min cfg -> t_window cfg <= t_window cfg' ->
  forall junk events y rows rows', increasingZ (map fst y) -> snd (transform inv junk cfg events y) = Ok rows ->
  snd (transform inv junk cfg' events y) = Ok rows' ->
  List.length rows = List.length rows' /\
  forall i r r' t', nth_error rows i = Some r -> nth_error rows' i = Some r' -> tr_t r' = Fin t' ->
    tr_start r = tr_start r' /\ exists t, tr_t r = Fin t /\ (Rabs t <= Rabs t')%R.
Proof. exact c101_trend. Qed.
Print Assumptions C101_trend.
Example C101_trend_case : increasingZ (map fst ex_y') /\ exists rows rows',
  snd (transform inv_small (fun _ _ => NaN) {| t_window := 4; t_min := 3; t_step := 1 |} (Some [10%Z]) ex_y') = Ok rows /\
  snd (transform inv_small (fun _ _ => NaN) {| t_window := 5; t_min := 3; t_step := 1 |} (Some [10%Z]) ex_y') = Ok rows'.
Proof.
  split; [exact ex_inc|]. destruct ex_trend as (r & E & _). exists [r].
  destruct (c32_defined inv_small inv_small_sound inv_small_complete_2 {| t_window := 5; t_min := 3; t_step := 1 |} eq_refl ltac:(cbn; lia) (fun _ _ => NaN) (Some [10%Z]) ex_y' ex_inc) as [[_ H] _].
  { intros z [<-|[]]. now left. }
  destruct H as [rows H]; [|now exists rows].
  intros t k p0 w [<-|[]] Hk Hl Hw. destruct k as [|k]; [|exfalso; destruct k as [|[|[|[|k]]]]; cbn in Hk; try discriminate; now destruct k].
  cbn in Hw. apply bent_not_straight; [lia|]. unfold price. cbn. lra.
Qed.

(** A shorter minimum length of SADF: the same times at the end, and no value is lower. *)
Theorem C101_sadf : forall inv, inv_sound inv -> forall model lags m m' const phi s out out', valid model lags -> n_cols model lags const < m -> m <= m' ->
  sadf_run inv model lags m const phi s = Ok out -> sadf_run inv model lags m' const phi s = Ok out' ->
  List.length out' + (m' - m) = List.length out /\
  forall q t x, nth_error out' q = Some (t, x) -> exists v v', x = Fin v' /\ nth_error out (q + (m' - m)) = Some (t, Fin v) /\ (v' <= v)%R.
Proof. exact c101_sadf. Qed.
Print Assumptions C101_sadf.

(** A larger exponent of the martingale models never raises a value. *)
Theorem C101_sadf_penalty : forall inv, inv_sound inv -> forall model lags m const phi phi' s out out', valid model lags -> n_cols model lags const < m ->
  is_martingale model = true -> (phi <= phi')%R ->
  sadf_run inv model lags m const phi s = Ok out -> sadf_run inv model lags m const phi' s = Ok out' ->
  List.length out' = List.length out /\
  forall q t x, nth_error out' q = Some (t, x) -> exists v v', x = Fin v' /\ nth_error out q = Some (t, Fin v) /\ (v' <= v)%R.
Proof. exact c101_sadf_penalty. Qed.
Print Assumptions C101_sadf_penalty.

Lemma ex_nondeg3 start stop : start + 3 <= stop -> 3 < stop <= 5 ->
  ~ degenerate (X_of "sm_exp" 0 true (vals ex_log) start stop) (Y_of "sm_exp" 0 (vals ex_log) start stop).
Proof.
  intros H1 H2. intros [Hd|[b Hb]].
  - assert (W : (start = 0 /\ stop = 4) \/ (start = 1 /\ stop = 4) \/ (start = 0 /\ stop = 5) \/ (start = 1 /\ stop = 5) \/ (start = 2 /\ stop = 5)) by lia.
    assert (exists N, inverse_of (gram (X_of "sm_exp" 0 true (vals ex_log) start stop)) N) as [N HN]; [|now apply (Hd N)].
    apply det_inverse; [reflexivity|]. destruct W as [(-> & ->)|[(-> & ->)|[(-> & ->)|[(-> & ->)|(-> & ->)]]]]; cbn -[INR]; cbn [INR]; lra.
  - rewrite sse_exp in Hb. assert (E : forall i, i < stop - start -> (ln (vals ex_log (start + i)) - (INR (start + i + 1) * b 0%nat + b 1%nat) = 0)%R).
    { intros i Hi. apply Rsqr_0_uniq. unfold Rsqr. refine (rsumn_zero_inv _ _ _ Hb i Hi). intros j _. apply sq_pos. }
    pose proof (E 0 ltac:(lia)) as E0. pose proof (E 1 ltac:(lia)) as E1. pose proof (E 2 ltac:(lia)) as E2. destruct logs as (L0 & L1 & L2 & L3 & L4).
    assert (start = 0 \/ start = 1 \/ start = 2) as [->|[->| ->]] by lia; cbn [Nat.add] in E0, E1, E2; rewrite ?L0, ?L1, ?L2, ?L3, ?L4 in E0, E1, E2; cbn [INR] in E0, E1, E2; lra.
Qed.
Example C101_sadf_case : valid "sm_exp" 0 /\ n_cols "sm_exp" 0 true < 3 /\ exists out out' out'',
  sadf_run inv_small "sm_exp" 0 3 true (1 / 2) ex_log = Ok out /\ sadf_run inv_small "sm_exp" 0 4 true (1 / 2) ex_log = Ok out' /\
  sadf_run inv_small "sm_exp" 0 3 true 1 ex_log = Ok out'' /\ List.length out' = 1.
Proof.
  split; [now right|]. split; [cbn; lia|].
  assert (S : forall phi, exists out, sadf_run inv_small "sm_exp" 0 3 true phi ex_log = Ok out).
  { intros phi. apply (c46_defined inv_small inv_small_sound "sm_exp" 0 3 true phi (or_intror eq_refl) ex_log ltac:(cbn; lia) inv_small_complete_2). split; [cbn; lia|]. split; [|exact ex_nondeg3].
    intros _ _. pose proof (exp_pos 1). repeat constructor; cbn; lra. }
  destruct (S (1 / 2)%R) as (out & E). destruct (S 1%R) as (out'' & E''). destruct ex_sadf as (v & E' & _). exists out, [(4%Z, Fin v)], out''. auto.
Qed.
