(** C114: the structural-break statistics and the unit and origin of the observations. *)
From Coq Require Import Reals Lra String.
From Verif Require Import Series OLS_Model OLS_Spec Break_Model Break_Spec Break_Scale_Spec Break_Cases Break_Scale_Proofs2 Break_Scale_Proofs3
  Break_Scale_Proofs4 Trend_Spec Trend_Proofs4.
Local Open Scope nat_scope.

(** Chu-Stinchcombe-White: neither the unit nor the origin matters. *)
Theorem C114_csw : forall d a b s, (0 < a)%R -> csw_run (side_name d) (rescale a b s) = csw_run (side_name d) s.
Proof. exact c114_csw. Qed.
Print Assumptions C114_csw.

(** On a mirrored series the two one-sided tests change places. *)
Theorem C114_csw_mirror : forall d a b s, (a < 0)%R -> csw_run (side_name d) (rescale a b s) = csw_run (side_name (opposite d)) s.
Proof. exact c114_csw_mirror. Qed.
Print Assumptions C114_csw_mirror.

Example C114_csw_case : forall d, csw_run (side_name d) [(0, 7%R); (1, 7%R); (2, 11%R)]%Z = csw_run (side_name d) [(0, 2%R); (1, 2%R); (2, 4%R)]%Z /\
  List.length (csw_run (side_name d) [(0, 2%R); (1, 2%R); (2, 4%R)]%Z) = 2.
Proof.
  intros d. split; [|reflexivity]. rewrite <- (C114_csw d 2 3 [(0, 2%R); (1, 2%R); (2, 4%R)]%Z) by lra. f_equal.
  unfold rescale. cbn [map fst snd]. replace (2 * 2 + 3)%R with 7%R by lra. replace (2 * 4 + 3)%R with 11%R by lra. reflexivity.
Qed.

(** Chow-type Dickey-Fuller: the unit does not matter. *)
Theorem C114_chow : forall a s, a <> 0%R -> forall inv m out, inv_sound inv -> inv_complete 1 inv -> 3 <= List.length s ->
  dfc_run inv m s = Ok out -> dfc_run inv m (rescale a 0 s) = Ok out.
Proof. exact c114_chow. Qed.
Print Assumptions C114_chow.

(** The origin does: the logarithms of the same prices in two units, one of which is the other times e, have a finite value
    and an infinite one. *)
Theorem C114_chow_origin_refuted : forall inv, inv_sound inv -> inv_complete 1 inv ->
  exists out out' v, dfc_run inv 1 ex_logs = Ok out /\ dfc_run inv 1 (rescale 1 1 ex_logs) = Ok out' /\
    nth_error out 0 = Some (1%Z, Fin v) /\ (v < 3)%R /\ nth_error out' 0 = Some (1%Z, PInf).
Proof. exact c114_chow_shift. Qed.
Print Assumptions C114_chow_origin_refuted.

Example C114_chow_case : (exists out, dfc_run inv_small 1 ex_logs = Ok out /\ dfc_run inv_small 1 (rescale 100 0 ex_logs) = Ok out) /\
  inv_sound inv_small /\ inv_complete 1 inv_small.
Proof.
  split; [|split; [exact inv_small_sound|exact inv_small_complete_1]].
  destruct (C114_chow_origin_refuted inv_small inv_small_sound inv_small_complete_1) as (out & _ & _ & H & _). exists out. split; auto.
  apply C114_chow; auto; [exact inv_small_sound|exact inv_small_complete_1|cbn; lia].
Qed.

(** SADF: the changes listed by [ignored] do not matter. *)
Theorem C114_sadf : forall inv, inv_sound inv -> forall model lags m const phi, valid model lags ->
  n_cols model lags const < m -> inv_complete (n_cols model lags const) inv -> forall a b s, ignored model const a b ->
  forall out, sadf_run inv model lags m const phi s = Ok out -> sadf_run inv model lags m const phi (rescale a b s) = Ok out.
Proof. exact c114_sadf. Qed.
Print Assumptions C114_sadf.

(** Without a constant the origin matters: a run that fails succeeds after one is added to every observation. *)
Theorem C114_sadf_origin_refuted : forall inv, inv_sound inv -> inv_complete 2 inv ->
  (forall out, sadf_run inv "no_trend" 1 3 false 0 ex_fib <> Ok out) /\
  exists v, sadf_run inv "no_trend" 1 3 false 0 (rescale 1 1 ex_fib) = Ok [(5%Z, Fin v)].
Proof. exact c114_sadf_shift. Qed.
Print Assumptions C114_sadf_origin_refuted.

Example C114_sadf_cases :
  (exists v, sadf_run inv_small "sm_exp" 0 4 true (1 / 2) ex_log = Ok [(4%Z, Fin v)] /\
    sadf_run inv_small "sm_exp" 0 4 true (1 / 2) (rescale 100 0 ex_log) = Ok [(4%Z, Fin v)]) /\
  (exists v, sadf_run inv_small "no_trend" 1 3 false 0 ex_fib1 = Ok [(5%Z, Fin v)] /\
    sadf_run inv_small "no_trend" 1 3 false 0 (rescale (-5) 0 ex_fib1) = Ok [(5%Z, Fin v)]).
Proof.
  split.
  - destruct ex_sadf as (v & H & _). exists v. split; [exact H|].
    refine (C114_sadf inv_small inv_small_sound "sm_exp" 0 4 true (1 / 2) _ _ inv_small_complete_2 100 0 ex_log _ _ H).
    + now right.
    + cbn; lia.
    + unfold ignored. cbn. lra.
  - destruct (fib1_runs inv_small inv_small_sound inv_small_complete_2) as (v & H). exists v. split; [exact H|].
    refine (C114_sadf inv_small inv_small_sound "no_trend" 1 3 false 0 fib_valid _ inv_small_complete_2 (-5) 0 ex_fib1 _ _ H).
    + cbn; lia.
    + unfold ignored. cbn. split; [intros E; lra|now left].
Qed.
(** What is ignored, model by model. *)
Example C114_ignored : ignored "linear" true 2 7 /\ ~ ignored "linear" false 2 7 /\ ignored "linear" false (-2) 0 /\
  ignored "sm_poly_1" false (-2) 7 /\ ignored "sm_power" false 100 0 /\ ~ ignored "sm_power" false (-100) 0.
Proof. unfold ignored. cbn. repeat split; try (intros E; lra); try lra; auto. Qed.
