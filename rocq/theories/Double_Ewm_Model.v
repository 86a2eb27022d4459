(** The running updates behind `ewm(span=...).mean()` and `.std()` in float64, as Ewm_Model but generic in the numbers: pandas 1.2,
    pandas/_libs/window/aggregations.pyx (ewma, ewmcov) with adjust=True, ignore_na=False, bias=False and min_periods=0, and _zsqrt of
    pandas/core/window/common.py, which the code calls in transformers/targets/labeling.py:462 and
    transformers/technical/moving_average.py:134-145. Infinite values are missing (_prep_values). [root] is the square root. *)
From Coq Require Import Reals String.
From Verif Require Import Prelude Num Series DailyVol_Model Feat_Model Double_Vpin_Model Double_Z_Model.

Local Open Scope list_scope.

Section Ewm.
  Context {A : Type} `{Arith A} (root : A -> A).
  (** alpha = 1 / (1 + com), com = (span - 1) / 2 and old_wt_factor = 1 - alpha. *)
  Definition wt_factor (span : A) : A := asub a1 (adiv a1 (aadd a1 (adiv (asub span a1) (aadd a1 a1)))).
  (** One value of the output per value of the series. *)
  Fixpoint scan_g {S} (update : S -> ext A -> S) (output : S -> ext A) (s : S) (l : list (ext A)) : list (ext A) :=
    match l with [] => [] | x :: r => let s' := update s x in output s' :: scan_g update output s' r end.
  (** mean_x or weighted_avg after an observation; "avoid numerical errors on constant series". *)
  Definition next_mean (wt mean cur : A) : A :=
    if aeqb mean cur then mean else adiv (aadd (amul wt mean) (amul a1 cur)) (aadd wt a1).
  (** ewma: nothing observed yet, or weighted_avg and old_wt. *)
  Definition ewma_step (f : A) (s : option (A * A)) (x : ext A) : option (A * A) :=
    match s, x with
    | None, Fin cur => Some (cur, a1)
    | None, _ => None
    | Some (avg, wt), Fin cur => let wt := amul wt f in Some (next_mean wt avg cur, aadd wt a1)
    | Some (avg, wt), _ => Some (avg, amul wt f)
    end.
  Definition ewma_out (s : option (A * A)) : ext A := match s with Some (avg, _) => Fin avg | None => NaN end.
  Definition ewma_double (span : A) (l : list (ext A)) : list (ext A) := scan_g (ewma_step (wt_factor span)) ewma_out None l.
  (** ewmcov of a series with itself. *)
  Record ecov := { e_mean : A; e_cov : A; e_sum_wt : A; e_sum_wt2 : A; e_old_wt : A }.
  Definition ecov_step (f : A) (s : option ecov) (x : ext A) : option ecov :=
    match s, x with
    | None, Fin cur => Some {| e_mean := cur; e_cov := a0; e_sum_wt := a1; e_sum_wt2 := a1; e_old_wt := a1 |}
    | None, _ => None
    | Some s, Fin cur =>
        let wt := amul (e_old_wt s) f in
        let m := next_mean wt (e_mean s) cur in
        let c := adiv (aadd (amul wt (aadd (e_cov s) (amul (asub (e_mean s) m) (asub (e_mean s) m))))
                            (amul a1 (amul (asub cur m) (asub cur m)))) (aadd wt a1) in
        Some {| e_mean := m; e_cov := c; e_sum_wt := aadd (amul (e_sum_wt s) f) a1;
                e_sum_wt2 := aadd (amul (e_sum_wt2 s) (amul f f)) (amul a1 a1); e_old_wt := aadd wt a1 |}
    | Some s, _ => Some {| e_mean := e_mean s; e_cov := e_cov s; e_sum_wt := amul (e_sum_wt s) f;
                           e_sum_wt2 := amul (e_sum_wt2 s) (amul f f); e_old_wt := amul (e_old_wt s) f |}
    end.
  Definition ecov_out (s : option ecov) : ext A :=
    match s with
    | None => NaN
    | Some s =>
        let numerator := amul (e_sum_wt s) (e_sum_wt s) in
        let denominator := asub numerator (e_sum_wt2 s) in
        if altb a0 denominator then Fin (amul (adiv numerator denominator) (e_cov s)) else NaN
    end.
  Definition ewmvar_run (span : A) (l : list (ext A)) : list (ext A) := scan_g (ecov_step (wt_factor span)) ecov_out None l.
  Definition ewmstd_running (span : A) (l : list (ext A)) : list (ext A) := map (zroot root) (ewmvar_run span l).
End Ewm.
Arguments ecov A : clear implicits.

(** get_daily_vol (labeling.py:438-463) with these updates. *)
Definition daily_vol_running (numbers : Arith R) (root : R -> R) (span : R) (idx : list Z) (close : list (ext R)) : result (list (Z * ext R)) :=
  @get_daily_vol R numbers (@ewmstd_running R numbers root span) idx close.
(** ExponentialWeightedMovingAverageDifference.transform (technical/moving_average.py:134-145) with these updates. *)
Definition ewma_difference_running (numbers : Arith R) (fast slow : R) (normalised : bool) (name : string) (X : frame) : result (list (ext R)) :=
  do c <- column name X ;;
  let fast_ewma := @ewma_double R numbers fast c in
  let slow_ewma := @ewma_double R numbers slow c in
  let d := zipw (@esub R numbers) fast_ewma slow_ewma in
  Ok (if normalised then zipw (@ediv R numbers) d (map (fun x => @eadd R numbers x (Fin (@a1 R numbers))) fast_ewma) else d).
