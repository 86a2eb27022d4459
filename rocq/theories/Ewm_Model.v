(** Model of the running updates behind `ewm(span=...).mean()` and `.std()`, which the code calls in
    transformers/targets/labeling.py:462, transformers/technical/moving_average.py:134-145 and technical/volume.py:17-36:
    pandas 1.2, pandas/_libs/window/aggregations.pyx (ewma, ewmcov) with adjust=True, ignore_na=False, bias=False and
    min_periods=0, and _zsqrt of pandas/core/window/common.py. Infinite values are missing (_prep_values).
    Simplification: exact arithmetic. *)
From Coq Require Import Reals.
From Verif Require Import Prelude Num.
Local Open Scope R_scope.

(** old_wt_factor: 1 - alpha, with alpha = 1 / (1 + com) and com = (span - 1) / 2. *)
Definition old_wt_factor (span : R) : R := 1 - 1 / (1 + (span - 1) / 2).

(** One value of the output per value of the series. *)
Fixpoint scan {S} (update : S -> ext R -> S) (output : S -> ext R) (s : S) (l : list (ext R)) : list (ext R) :=
  match l with [] => [] | x :: r => let s' := update s x in output s' :: scan update output s' r end.

(** ewma: nothing observed yet, or weighted_avg and old_wt. *)
Definition ewma_update (f : R) (s : option (R * R)) (x : ext R) : option (R * R) :=
  match s, x with
  | None, Fin cur => Some (cur, 1)
  | None, _ => None
  | Some (avg, wt), Fin cur =>
      let wt := wt * f in
      Some (if Req_EM_T avg cur then avg else (wt * avg + 1 * cur) / (wt + 1), wt + 1)
  | Some (avg, wt), _ => Some (avg, wt * f)
  end.
Definition ewma_output (s : option (R * R)) : ext R := match s with Some (avg, _) => Fin avg | None => NaN end.
Definition ewma_run (span : R) (l : list (ext R)) : list (ext R) := scan (ewma_update (old_wt_factor span)) ewma_output None l.

(** ewmcov of a series with itself. *)
Record cov_state := { c_mean : R; c_cov : R; c_sum_wt : R; c_sum_wt2 : R; c_old_wt : R }.
Definition ewmcov_update (f : R) (s : option cov_state) (x : ext R) : option cov_state :=
  match s, x with
  | None, Fin cur => Some {| c_mean := cur; c_cov := 0; c_sum_wt := 1; c_sum_wt2 := 1; c_old_wt := 1 |}
  | None, _ => None
  | Some s, Fin cur =>
      let wt := c_old_wt s * f in
      let m := if Req_EM_T (c_mean s) cur then c_mean s else (wt * c_mean s + 1 * cur) / (wt + 1) in
      let c := (wt * (c_cov s + (c_mean s - m) * (c_mean s - m)) + 1 * ((cur - m) * (cur - m))) / (wt + 1) in
      Some {| c_mean := m; c_cov := c; c_sum_wt := c_sum_wt s * f + 1; c_sum_wt2 := c_sum_wt2 s * (f * f) + 1; c_old_wt := wt + 1 |}
  | Some s, _ => Some {| c_mean := c_mean s; c_cov := c_cov s; c_sum_wt := c_sum_wt s * f; c_sum_wt2 := c_sum_wt2 s * (f * f); c_old_wt := c_old_wt s * f |}
  end.
Definition ewmcov_output (s : option cov_state) : ext R :=
  match s with
  | None => NaN
  | Some s =>
      let numerator := c_sum_wt s * c_sum_wt s in
      let denominator := numerator - c_sum_wt2 s in
      if Rlt_dec 0 denominator then Fin (numerator / denominator * c_cov s) else NaN
  end.
(** _zsqrt: negative values become 0. *)
Definition zsqrt (x : ext R) : ext R := match x with Fin v => Fin (if Rlt_dec v 0 then 0 else sqrt v) | _ => x end.
Definition ewmstd_run (span : R) (l : list (ext R)) : list (ext R) := map zsqrt (scan (ewmcov_update (old_wt_factor span)) ewmcov_output None l).
