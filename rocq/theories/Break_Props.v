(** C44, C46, C47, C62, C63, C87: structural-break tests. [inv] is the matrix inverse used by the regressions ([inv_small] in
    Trend_Spec.v meets the assumptions on it for one and two regressors). *)
From Coq Require Import Reals Lra String.
From Verif Require Import Series OLS_Model OLS_Spec Break_Model Break_Spec OLS_TStat OLS_Short Break_Proofs Break_Proofs2 Break_Proofs3 Break_Proofs4
  Break_Proofs5 Break_Proofs6 Break_Cases Trend_Spec Trend_Proofs4.
Local Open Scope nat_scope.

(** ** C44: Chu-Stinchcombe-White *)

(** One row per observation from the second on. *)
Theorem C44_rows : forall d s, map fst (csw_run (side_name d) s) = skipn 1 (map fst s).
Proof. exact c44_rows. Qed.
Print Assumptions C44_rows.

(** Row [k] is about observation [k] + 2 (counting from one). Unless all observations so far are equal, its statistic is
    the largest standardised departure from an earlier observation, and its critical value is the one of the first
    observation that attains it. *)
Theorem C44_supremum : forall d s k row,
  nth_error (csw_run (side_name d) s) k = Some row -> ~ flat s (k + 2) ->
  exists n, 1 <= n < k + 2 /\ snd row = (Fin (csw d s (k + 2) n), Fin (sqrt (46 / 10 + ln (INR (k + 2 - n))))) /\
    forall n', 1 <= n' < k + 2 -> (csw d s (k + 2) n' <= csw d s (k + 2) n)%R /\ (n' < n -> (csw d s (k + 2) n' < csw d s (k + 2) n)%R).
Proof. exact c44_sup. Qed.
Print Assumptions C44_supremum.

(** The two-sided statistic is the larger of the one-sided ones. *)
Theorem C44_two_sided : forall s k rp rn rt, ~ flat s (k + 2) ->
  nth_error (csw_run (side_name Positive) s) k = Some rp ->
  nth_error (csw_run (side_name Negative) s) k = Some rn ->
  nth_error (csw_run (side_name TwoSided) s) k = Some rt ->
  exists vp vn, fst (snd rp) = Fin vp /\ fst (snd rn) = Fin vn /\ fst (snd rt) = Fin (Rmax vp vn).
Proof. exact c44_two. Qed.
Print Assumptions C44_two_sided.

(** While all observations are equal the statistic is minus infinity and the critical value is missing. *)
Theorem C44_constant_prefix : forall d s k row,
  nth_error (csw_run (side_name d) s) k = Some row -> flat s (k + 2) -> snd row = (NInf, NaN).
Proof. exact c44_flat. Qed.
Print Assumptions C44_constant_prefix.

(** The constructor accepts exactly the three sides. *)
Theorem C44_sides : forall name, ((exists d, name = side_name d) -> csw_construct name = Ok name) /\ ((forall d, name <> side_name d) -> csw_construct name = Err AssertionError).
Proof. exact c44_sides. Qed.
Print Assumptions C44_sides.

Example C44_case : let s := [(0, 5%R); (1, 5%R); (2, 7%R)]%Z in
  List.length (csw_run (side_name TwoSided) s) = 2 /\ flat s 2 /\ ~ flat s 3 /\
  forall d, csw_construct (side_name d) = Ok (side_name d).
Proof.
  cbv zeta. split; [reflexivity|]. split; [|split].
  - intros i Hi. assert (i = 1) as -> by lia. reflexivity.
  - intros H. specialize (H 2 ltac:(lia)). cbn in H. lra.
  - intros []; reflexivity.
Qed.

(** ** C46: SADF *)

(** For every model (with at least one lag for the standard ones) and every minimum length above the number of
    regressors: a run reports one value per row after the first [m], at the time of that row, and the value is the
    largest statistic over the windows of at least [m] rows that end at that row. The statistic of a window is the
    t-statistic of the tested coefficient in the least-squares fit on that window; for the martingale models it is
    penalised, see C47. *)
Theorem C46_supremum : forall inv, inv_sound inv -> forall model lags m const phi, valid model lags ->
  forall s out, n_cols model lags const < m -> sadf_run inv model lags m const phi s = Ok out ->
  let rows := n_rows model lags (List.length s) in
  m <= rows /\ List.length out = rows - m /\
  forall q, m + q < rows -> exists v,
    nth_error out q = Some (nth (row_pos model lags (m + q)) (map fst s) 0%Z, Fin v) /\
    largest_over_starts (fun start u => exists t,
      t_stat (X_of model lags const (vals s) start (m + q + 1)) (Y_of model lags (vals s) start (m + q + 1)) t /\
      u = code_stat model phi start t) m (m + q + 1) v.
Proof. exact c46. Qed.
Print Assumptions C46_supremum.

(** The t-statistic of a window is unique, so the reported value is determined. *)
Theorem C46_statistic_unique : forall X y v v', 0 < nc X -> t_stat X y v -> t_stat X y v' -> v = v'.
Proof. exact t_stat_unique. Qed.
Print Assumptions C46_statistic_unique.

(** The run succeeds exactly when there are enough rows, the prices are positive if their logarithm is taken, and no
    window is degenerate (collinear regressors or an exact fit). *)
Theorem C46_defined : forall inv, inv_sound inv -> forall model lags m const phi, valid model lags ->
  forall s, n_cols model lags const < m -> inv_complete (n_cols model lags const) inv ->
  let rows := n_rows model lags (List.length s) in
  (exists out, sadf_run inv model lags m const phi s = Ok out) <->
  (m <= rows /\
   (is_martingale model = true -> model <> "sm_poly_1"%string -> Forall (fun v => (0 < v)%R) (map snd s)) /\
   forall start stop, start + m <= stop -> m < stop <= rows ->
     ~ degenerate (X_of model lags const (vals s) start stop) (Y_of model lags (vals s) start stop)).
Proof. exact c46_defined. Qed.
Print Assumptions C46_defined.

(** The constructor accepts minimum lengths that leave no residual degrees of freedom. With as many rows as regressors
    every reported value is NaN; with fewer no value is ever reported. *)
Theorem C46_short_windows_refuted : forall inv, inv_sound inv -> forall model lags m const phi, valid model lags ->
  forall s out, 0 < m -> m <= n_cols model lags const -> sadf_run inv model lags m const phi s = Ok out ->
  Forall (fun p => snd p = NaN) out /\ (m < n_cols model lags const -> out = []).
Proof. exact c46_short. Qed.
Print Assumptions C46_short_windows_refuted.

(** Standard models without lags, also accepted by the constructor, always fail. *)
Theorem C46_zero_lags_refuted : forall inv model m const phi s, is_standard model = true -> 0 < m ->
  sadf_run inv model 0 m const phi s = Err ValueError.
Proof. exact c46_no_lags. Qed.
Print Assumptions C46_zero_lags_refuted.

(** Concrete runs: an exponential-trend run with a positive value, and one with windows as short as their regressors. *)
Example C46_case : valid "sm_exp" 0 /\ n_cols "sm_exp" 0 true < 4 /\
  (exists v, sadf_run inv_small "sm_exp" 0 4 true (1 / 2) ex_log = Ok [(4%Z, Fin v)] /\ (0 < v)%R) /\
  inv_sound inv_small /\ inv_complete 2 inv_small.
Proof. split; [now right|]. split; [cbn; lia|]. split; [exact ex_sadf|]. split; [exact inv_small_sound|exact inv_small_complete_2]. Qed.
Example C46_short_case : sadf_construct (LagCount 1) 2 (Fin 0%R) = Ok tt /\ n_cols "no_trend" 1 false = 2 /\
  sadf_run inv_small "no_trend" 1 2 false 0 ex_square = Ok [(4%Z, NaN)].
Proof.
  split; [|split; [reflexivity|exact ex_square_run]]. apply c87. split; [lra|lia].
Qed.

(** ** C47: the penalty of the martingale models *)

(** Whenever the first reported value is positive and phi is positive, it exceeds the documented one (whether the base
    of the power is read as t - t0 or as the number of rows of the window). *)
Theorem C47_penalty_refuted : forall inv model lags m const phi s out time v w k,
  inv_sound inv -> is_martingale model = true -> (0 < phi)%R -> 4 <= m -> k <= 1 ->
  sadf_run inv model lags m const phi s = Ok out -> nth_error out 0 = Some (time, Fin v) -> (0 < v)%R ->
  largest_over_starts (fun start u => exists t,
    t_stat (X_of model lags const (vals s) start (m + 1)) (Y_of model lags (vals s) start (m + 1)) t /\
    u = documented_stat phi k (m + 1) start t) m (m + 1) w ->
  (w < v)%R.
Proof. exact c47. Qed.
Print Assumptions C47_penalty_refuted.

(** Without penalty the two agree on every window. *)
Theorem C47_no_penalty_partial : forall model start stop k t, is_martingale model = true ->
  code_stat model 0 start t = documented_stat 0 k stop start t.
Proof. exact c47_zero. Qed.
Print Assumptions C47_no_penalty_partial.

(** ** C87: parameters of the SADF test *)

(** The constructor accepts exactly the numbers of lags below the minimum length, with a penalty exponent in [0,1]. *)
Theorem C87_accepted : forall n m phi, sadf_construct (LagCount n) m (Fin phi) = Ok tt <-> (0 <= phi <= 1)%R /\ (n < m)%Z.
Proof. exact c87. Qed.
Print Assumptions C87_accepted.

(** Anything else is rejected; an exponent that is not a number in [0,1] with an AssertionError. *)
Theorem C87_rejected : forall lags m phi, sadf_construct lags m phi <> Ok tt ->
  sadf_construct lags m phi = Err AssertionError \/ sadf_construct lags m phi = Err TypeError /\ exists l, lags = LagList l.
Proof. exact c87_rejected. Qed.
Print Assumptions C87_rejected.
Theorem C87_exponent : forall lags m phi, (forall v, phi = Fin v -> ~ (0 <= v <= 1)%R) ->
  sadf_construct lags m phi = Err AssertionError.
Proof. exact c87_exponent. Qed.
Print Assumptions C87_exponent.

(** The documented list of lags is never accepted. *)
Theorem C87_lag_list_refuted : forall l m phi, sadf_construct (LagList l) m phi <> Ok tt.
Proof. exact c87_list. Qed.
Print Assumptions C87_lag_list_refuted.

(** The model's name is only looked at by a run: every name but the seven documented ones is a ValueError there. *)
Theorem C87_unknown_model : forall inv model lags m const phi s,
  ~ In model ["no_trend"; "linear"; "quadratic"; "sm_poly_1"; "sm_poly_2"; "sm_exp"; "sm_power"]%string ->
  sadf_run inv model lags m const phi s = Err ValueError.
Proof. exact c87_unknown. Qed.
Print Assumptions C87_unknown_model.

Example C87_cases : sadf_construct (LagCount 2) 20 (Fin (1 / 2)%R) = Ok tt /\
  sadf_construct (LagCount 20) 20 (Fin (1 / 2)%R) = Err AssertionError /\
  sadf_construct (LagList [1; 2]%Z) 20 (Fin (1 / 2)%R) = Err TypeError /\
  sadf_construct (LagCount 2) 20 NaN = Err AssertionError /\
  sadf_run inv_small "cubic" 1 2 false 0 ex_square = Err ValueError.
Proof. exact c87_cases. Qed.

(** ** C62: Chow-type Dickey-Fuller *)

(** One value per position from [m] up to [m] before the end: the t-value of the slope of the increments on the
    previous levels from that position on. It is infinite (or NaN for a zero slope) for an exact fit. *)
Theorem C62_chow_statistic : forall inv, inv_sound inv -> forall m s out, 3 <= List.length s -> dfc_run inv m s = Ok out ->
  List.length out = List.length s - m - m /\
  forall q, q < List.length s - m - m -> exists e, nth_error out q = Some (nth (m + q) (map fst s) 0%Z, e) /\
    (0 < chow_sxx s (m + q))%R /\
    ((0 < chow_sse s (m + q))%R -> e = Fin (chow_t s (m + q))) /\
    (chow_sse s (m + q) = 0%R -> e = signed_inf (asign (chow_slope s (m + q)))).
Proof. exact c62. Qed.
Print Assumptions C62_chow_statistic.

(** The run succeeds exactly when no tested position is followed by zero levels only. *)
Theorem C62_defined : forall inv, inv_sound inv -> forall m s, inv_complete 1 inv ->
  ((exists out, dfc_run inv m s = Ok out) <-> forall t, m <= t -> t + m < List.length s -> chow_sxx s t <> 0%R).
Proof. exact c62_defined. Qed.
Print Assumptions C62_defined.

Example C62_case : exists out, dfc_run inv_small 1 [(0, 1%R); (1, 2%R); (2, 3%R); (3, 5%R)]%Z = Ok out /\ List.length out = 2.
Proof.
  destruct (chow_lookahead inv_small inv_small_sound inv_small_complete_1) as (out & _ & _ & _ & H & _). exists out. split; auto.
  now destruct (c62 inv_small inv_small_sound 1 [(0, 1%R); (1, 2%R); (2, 3%R); (3, 5%R)]%Z out ltac:(cbn; lia) H) as [-> _].
Qed.

(** ** C63: no look-ahead *)

(** Chu-Stinchcombe-White: the rows for the first [m] observations do not depend on the later ones. *)
Theorem C63_csw_no_look_ahead : forall d s m, 1 <= m <= List.length s -> csw_run d (firstn m s) = firstn (m - 1) (csw_run d s).
Proof. exact c44_causal. Qed.
Print Assumptions C63_csw_no_look_ahead.

(** SADF: if the whole run succeeds, the run on the first [k] observations gives the same values for their rows. *)
Theorem C63_sadf_no_look_ahead : forall inv, inv_sound inv -> forall model lags m const phi, valid model lags ->
  forall s k out, n_cols model lags const < m -> inv_complete (n_cols model lags const) inv ->
  sadf_run inv model lags m const phi s = Ok out -> k <= List.length s -> m <= n_rows model lags k ->
  exists out', sadf_run inv model lags m const phi (firstn k s) = Ok out' /\ out' = firstn (n_rows model lags k - m) out.
Proof. exact sadf_causal. Qed.
Print Assumptions C63_sadf_no_look_ahead.

(** Chow-type Dickey-Fuller: two series that agree up to the reported time get different values there. *)
Theorem C63_chow_look_ahead_refuted : forall inv, inv_sound inv -> inv_complete 1 inv ->
  exists out out' a b, dfc_run inv 1 [(0, 1%R); (1, 2%R); (2, 3%R); (3, 5%R)]%Z = Ok out /\
    dfc_run inv 1 [(0, 1%R); (1, 2%R); (2, 3%R); (3, 6%R)]%Z = Ok out' /\
    nth_error out 1 = Some (2%Z, Fin a) /\ nth_error out' 1 = Some (2%Z, Fin b) /\ a <> b.
Proof. exact chow_lookahead. Qed.
Print Assumptions C63_chow_look_ahead_refuted.
