(** The rolling z-score with the rolling deviation as pandas 1.2 computes it in float64: pandas/_libs/window/aggregations.pyx, add_var,
    remove_var, calc_var and roll_var, Welford's updates with compensated (Kahan) differences. Generic in the numbers; [root] is the square root.
    The loop over the rows is that of Roll_Model. *)
From Coq Require Import Reals.
From Verif Require Import Prelude Num Series Roll_Model Double_Model Double_Vpin_Model Double_Cross_Model.
Local Open Scope nat_scope.

Section Welford.
  Context {A : Type} `{Arith A} (root : A -> A).
  (** nobs, mean_x, ssqdm_x, compensation_add and compensation_remove. *)
  Record welford := { w_nobs : nat; w_mean : A; w_ssqdm : A; w_add : A; w_remove : A }.
  (** add_var. *)
  Definition add_var (s : welford) (v : A) : welford :=
    let nobs := S (w_nobs s) in
    let y := asub v (w_add s) in
    let delta := asub y (w_mean s) in
    let mean := aadd (w_mean s) (adiv delta (anat nobs)) in
    {| w_nobs := nobs; w_mean := mean; w_ssqdm := aadd (w_ssqdm s) (amul (asub v mean) delta);
       w_add := asub (aadd delta (w_mean s)) y; w_remove := w_remove s |}.
  (** remove_var. *)
  Definition remove_var (s : welford) (v : A) : welford :=
    match Nat.pred (w_nobs s) with
    | O => {| w_nobs := 0; w_mean := a0; w_ssqdm := a0; w_add := w_add s; w_remove := w_remove s |}
    | nobs =>
        let y := asub v (w_remove s) in
        let delta := asub y (w_mean s) in
        let mean := asub (w_mean s) (adiv delta (anat nobs)) in
        {| w_nobs := nobs; w_mean := mean; w_ssqdm := asub (w_ssqdm s) (amul (asub v mean) delta);
           w_add := w_add s; w_remove := asub (aadd delta (w_mean s)) y |}
    end.
  (** calc_var with ddof = 1 and minp = window. *)
  Definition calc_var (w : nat) (s : welford) : ext A :=
    if (Nat.leb w (w_nobs s) && Nat.ltb 1 (w_nobs s))%bool then
      let result := adiv (w_ssqdm s) (anat (w_nobs s - 1)) in
      Fin (if altb result a0 then a0 else result)
    else NaN.
  (** roll_var. *)
  Definition kahan_var (w : nat) (l : list (ext A)) : list (ext A) :=
    roll (if_finite add_var) (if_finite remove_var) (calc_var w) {| w_nobs := 0; w_mean := a0; w_ssqdm := a0; w_add := a0; w_remove := a0 |} w l.
  (** _zsqrt of pandas/core/window/common.py. *)
  Definition zroot (x : ext A) : ext A := match x with Fin v => Fin (if altb v a0 then a0 else root v) | _ => x end.
  (** transformers/features/rolling_z_score.py:33-44, calc_z_score. *)
  Definition z_running (window : nat) (x : list (ext A)) : list (ext A) :=
    zipw ediv (zipw esub x (kahan_mean window x)) (map zroot (kahan_var window x)).
End Welford.
Arguments welford A : clear implicits.

(** The square root of float64: the correctly rounded one. *)
Definition double_root (x : R) : R := to_double (sqrt x).
