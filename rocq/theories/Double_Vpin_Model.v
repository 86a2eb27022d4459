(** VPIN with the rolling sums as pandas 1.2 computes them in float64: pandas/_libs/window/aggregations.pyx, add_sum, remove_sum, calc_sum and
    roll_sum, a compensated (Kahan) sum for the values that enter the window and another for those that leave. Generic in the numbers.
    The loop over the rows is that of Roll_Model. *)
From Coq Require Import Reals String.
From Verif Require Import Prelude Num Series Feat_Model Roll_Model.
Local Open Scope nat_scope.

Section Kahan.
  Context {A : Type} `{Arith A}.
  Definition asub (x y : A) : A := aadd x (aopp y).

  (** nobs, sum_x, compensation_add and compensation_remove. *)
  Record kahan := { k_nobs : nat; k_sum : A; k_add : A; k_remove : A }.
  (** add_sum. *)
  Definition add_sum (s : kahan) (v : A) : kahan :=
    let y := asub v (k_add s) in
    let t := aadd (k_sum s) y in
    {| k_nobs := S (k_nobs s); k_sum := t; k_add := asub (asub t (k_sum s)) y; k_remove := k_remove s |}.
  (** remove_sum. *)
  Definition remove_sum (s : kahan) (v : A) : kahan :=
    let y := asub (aopp v) (k_remove s) in
    let t := aadd (k_sum s) y in
    {| k_nobs := Nat.pred (k_nobs s); k_sum := t; k_add := k_add s; k_remove := asub (asub t (k_sum s)) y |}.
  (** calc_sum, with minp = window > 0. *)
  Definition calc_sum (w : nat) (s : kahan) : ext A := if Nat.leb w (k_nobs s) then Fin (k_sum s) else NaN.
  (** roll_sum. *)
  Definition kahan_sum (w : nat) (l : list (ext A)) : list (ext A) :=
    roll (if_finite add_sum) (if_finite remove_sum) (calc_sum w) {| k_nobs := 0; k_sum := a0; k_add := a0; k_remove := a0 |} w l.

  (** transformers/microstructural_features/vpin.py:58-82, VPIN.transform after the choice of the columns. *)
  Definition vpin_values (window : nat) (volume buy sell : list (ext A)) : result (list (ext A)) :=
    let total_volume_windowed_sum := kahan_sum window volume in
    let diff_volume := kahan_sum window (map eabs (zipw esub buy sell)) in
    let vpin_feature := zipw ediv diff_volume total_volume_windowed_sum in
    let vpin_feature := (firstn window vpin_feature ++ map (fun x => if is_nan x then Fin a0 else x) (skipn window vpin_feature))%list in
    do _ <- raise_if (existsb is_nan (skipn window vpin_feature)) AssertionError ;;
    Ok vpin_feature.
End Kahan.
Arguments kahan A : clear implicits.

(** transformers/microstructural_features/vpin.py:48-82, VPIN.transform, in the given arithmetic. *)
Definition vpin_running (numbers : Arith R) (window : nat) (volume_name buy_name sell_name : string) (X : frame) : result (list (ext R)) :=
  do _ <- check_missing_columns X [volume_name; buy_name; sell_name] ;;
  do volume <- column volume_name X ;;
  do buy <- column buy_name X ;;
  do sell <- column sell_name X ;;
  vpin_values window volume buy sell.
