(** C89, structural-break tests: the unit of the prices does not matter. *)
From Coq Require Import Reals Lra Lia String.
From Verif Require Import PreludeFacts Series OLS_Model OLS_Spec Break_Model Break_Spec Break_Cases Trend_Spec Trend_Proofs4 Scale_Spec3 Scale_Proofs4 Scale_Proofs5 Scale_Cases.
Local Open Scope nat_scope.

(** SADF, for every model. *)
Theorem C89_sadf : forall inv, inv_sound inv -> forall model lags m const phi, valid model lags -> n_cols model lags const < m -> inv_complete (n_cols model lags const) inv ->
  forall c s out, (0 < c)%R ->
  (sadf_run inv model lags m const phi (multiplied c s) = Ok out <-> sadf_run inv model lags m const phi s = Ok out).
Proof. intros inv Hs model lags m const phi HV Hm Hc c s out H. apply sadf_units; auto. lra. Qed.
Print Assumptions C89_sadf.
Example C89_sadf_case : valid "sm_exp" 0 /\ n_cols "sm_exp" 0 true < 4 /\ inv_sound inv_small /\ inv_complete (n_cols "sm_exp" 0 true) inv_small /\
  exists v, sadf_run inv_small "sm_exp" 0 4 true (1 / 2) ex_log = Ok [(4%Z, Fin v)].
Proof.
  split; [now right|]. split; [cbn; lia|]. split; [exact inv_small_sound|]. split; [exact inv_small_complete_2|]. destruct ex_sadf as (v & H & _). now exists v.
Qed.

(** The Chow-type test. *)
Theorem C89_chow : forall inv, inv_sound inv -> inv_complete 1 inv -> forall m c s out, (0 < c)%R -> 3 <= List.length s ->
  (dfc_run inv m (multiplied c s) = Ok out <-> dfc_run inv m s = Ok out).
Proof. intros inv Hs Hc m c s out H L. apply chow_units; auto. lra. Qed.
Print Assumptions C89_chow.
Example C89_chow_case : inv_sound inv_small /\ inv_complete 1 inv_small /\ exists out, dfc_run inv_small 1 [(0, 1%R); (1, 2%R); (2, 3%R); (3, 5%R)]%Z = Ok out.
Proof.
  split; [exact inv_small_sound|]. split; [exact inv_small_complete_1|].
  destruct (Break_Proofs5.chow_lookahead inv_small inv_small_sound inv_small_complete_1) as (out & _ & _ & _ & H & _). now exists out.
Qed.

(** The Chu-Stinchcombe-White test; a constant may be added to all prices as well. *)
Theorem C89_csw : forall a b d s, (0 < a)%R -> csw_run (side_name d) (affine a b s) = csw_run (side_name d) s.
Proof. intros a b d s H. rewrite csw_affine by lra. unfold turned. destruct (Rlt_dec a 0); [lra|reflexivity]. Qed.
Print Assumptions C89_csw.
