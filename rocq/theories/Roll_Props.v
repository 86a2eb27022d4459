(** C105: moving statistics. *)
From Coq Require Import Reals Lra Lia.
From Verif Require Import Prelude Num Series DailyVol_Model Feat_Model Ewm_Model Ewm_Proofs Roll_Model Roll_Proofs Roll_Proofs2.
Local Open Scope nat_scope.

(** The statistics of moving windows, updated value by value, are those of the last w values, and missing unless all of these
    are present. *)
Theorem C105_sum : forall w l, 0 < w -> roll_sum w l = rolling w agg_sum l.
Proof. exact roll_sum_eq. Qed.
Print Assumptions C105_sum.
Theorem C105_mean : forall w l, 0 < w -> roll_mean w l = rolling w agg_mean l.
Proof. exact roll_mean_eq. Qed.
Print Assumptions C105_mean.
Theorem C105_std : forall w l, 0 < w -> roll_std w l = rolling w agg_std l.
Proof. exact roll_std_eq. Qed.
Print Assumptions C105_std.
Theorem C105_max : forall w l, 0 < w -> roll_max w l = rolling w agg_max l.
Proof. exact roll_max_eq. Qed.
Print Assumptions C105_max.
Theorem C105_min : forall w l, 0 < w -> roll_min w l = rolling w agg_min l.
Proof. exact roll_min_eq. Qed.
Print Assumptions C105_min.
Theorem C105_cov : forall w s t, 0 < w -> roll_cov w s t = rolling_cov w s t.
Proof. exact roll_cov_eq. Qed.
Print Assumptions C105_cov.
(** The exponentially weighted mean and deviation, updated value by value, are the weighted mean and the unbiased weighted
    deviation of all values so far. *)
Theorem C105_ewm_mean : forall span l, (1 <= span)%R -> ewma_run span l = ewm_mean span l.
Proof. exact ewma_run_eq. Qed.
Print Assumptions C105_ewm_mean.
Theorem C105_ewm_std : forall span l, (1 <= span)%R -> ewmstd_run span l = ewm_std span l.
Proof. exact ewmstd_run_eq. Qed.
Print Assumptions C105_ewm_std.
(** With span 1 the mean is the last value, and stays where a value is missing. *)
Example C105_case_ewm : ewma_run 1 [NaN; Fin 5; NaN; Fin 7]%R = [NaN; Fin 5; Fin 5; Fin 7]%R.
Proof.
  unfold ewma_run. cbn. replace (old_wt_factor 1) with 0%R by (unfold old_wt_factor; field).
  destruct (Req_EM_T 5 7) as [H|_]; [lra|]. repeat f_equal. field.
Qed.
(** A missing value leaves no maximum until it has left the window. *)
Example C105_case_max : roll_max 2 [Fin 3; Fin 1; NaN; Fin 2; Fin 4]%R = [NaN; Fin 3; NaN; NaN; Fin 4]%R.
Proof. rewrite C105_max by lia. unfold rolling, agg_max, slice. cbn. unfold Rmax. destruct (Rle_dec 3 1); [lra|]. destruct (Rle_dec 2 4); [reflexivity|lra]. Qed.
