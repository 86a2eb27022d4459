(** Model of the running updates behind `rolling(window)` and its sum, mean, std, max, min and cov, which the code calls in
    transformers/features/custom.py:10-15, features/rolling_z_score.py:21-28, microstructural_features/first_generation.py,
    second_generation.py and vpin.py, technical/moving_average.py:52-75 and technical/rsi.py:44-124: pandas 1.2,
    pandas/_libs/window/aggregations.pyx (roll_sum, roll_mean, roll_var, _roll_min_max) with min_periods = window, _zsqrt of
    pandas/core/window/common.py and _get_cov of pandas/core/window/rolling.py. Infinite values are missing (_prep_values).
    Simplification: exact arithmetic, so no Kahan summation (Double_Vpin_Model has it for sums). *)
From Coq Require Import Reals.
From Verif Require Import Prelude Num Series.
Local Open Scope nat_scope.

(** The bounds of a fixed window: the window of row i starts at max(0, i + 1 - w) and ends after i. *)
Definition start (w i : nat) : nat := S i - w.
(** The loop of roll_sum, roll_mean and roll_var: remove the values that have left the window, add the new one, output.
    Simplification: with a fixed window one value enters per row and at most one leaves; the window is positive. *)
Fixpoint roll_loop {S V} (add remove : S -> V -> S) (output : S -> V) (w : nat) (l : list V) (s : S) (rows : list nat) : list V :=
  match rows with
  | [] => []
  | i :: rest =>
      let left := match i with 0 => [] | Datatypes.S j => slice (start w j) (start w i) l end in
      let entered := slice i (Datatypes.S i) l in
      let s := fold_left add entered (fold_left remove left s) in
      output s :: roll_loop add remove output w l s rest
  end.
Definition roll {S V} (add remove : S -> V -> S) (output : S -> V) (empty : S) (w : nat) (l : list V) : list V :=
  roll_loop add remove output w l empty (seq 0 (length l)).
(** A value that is not missing. *)
Definition if_finite {S A} (f : S -> A -> S) (s : S) (x : ext A) : S := match x with Fin v => f s v | _ => s end.

Local Open Scope R_scope.
(** roll_sum: nobs and sum_x. *)
Definition roll_sum (w : nat) (l : list (ext R)) : list (ext R) :=
  roll (if_finite (fun s v => (S (fst s), snd s + v))) (if_finite (fun s v => (Nat.pred (fst s), snd s - v)))
       (fun s => if Nat.leb w (fst s) then Fin (snd s) else NaN) (0%nat, 0) w l.

(** roll_mean: nobs, sum_x and neg_ct, with the corrections of calc_mean. *)
Record mean_state := { m_nobs : nat; m_sum : R; m_neg : nat }.
Definition add_mean (s : mean_state) (v : R) : mean_state :=
  {| m_nobs := S (m_nobs s); m_sum := m_sum s + v; m_neg := if Rlt_dec v 0 then S (m_neg s) else m_neg s |}.
Definition remove_mean (s : mean_state) (v : R) : mean_state :=
  {| m_nobs := Nat.pred (m_nobs s); m_sum := m_sum s - v; m_neg := if Rlt_dec v 0 then Nat.pred (m_neg s) else m_neg s |}.
Definition calc_mean (w : nat) (s : mean_state) : ext R :=
  if (Nat.leb w (m_nobs s) && Nat.ltb 0 (m_nobs s))%bool then
    let result := m_sum s / INR (m_nobs s) in
    if Nat.eqb (m_neg s) 0 then Fin (if Rlt_dec result 0 then 0 else result)
    else if Nat.eqb (m_neg s) (m_nobs s) then Fin (if Rlt_dec 0 result then 0 else result)
    else Fin result
  else NaN.
Definition roll_mean (w : nat) (l : list (ext R)) : list (ext R) :=
  roll (if_finite add_mean) (if_finite remove_mean) (calc_mean w) {| m_nobs := 0; m_sum := 0; m_neg := 0 |} w l.

(** roll_var with ddof = 1: nobs, mean_x and ssqdm_x, the sum of squared deviations from the mean. *)
Record var_state := { v_nobs : nat; v_mean : R; v_ssqdm : R }.
Definition add_var (s : var_state) (v : R) : var_state :=
  let nobs := S (v_nobs s) in
  let delta := v - v_mean s in
  let mean := v_mean s + delta / INR nobs in
  {| v_nobs := nobs; v_mean := mean; v_ssqdm := v_ssqdm s + (v - mean) * delta |}.
Definition remove_var (s : var_state) (v : R) : var_state :=
  let nobs := Nat.pred (v_nobs s) in
  match nobs with
  | O => {| v_nobs := 0; v_mean := 0; v_ssqdm := 0 |}
  | _ => let delta := v - v_mean s in
         let mean := v_mean s - delta / INR nobs in
         {| v_nobs := nobs; v_mean := mean; v_ssqdm := v_ssqdm s - (v - mean) * delta |}
  end.
Definition calc_var (w : nat) (s : var_state) : ext R :=
  if (Nat.leb w (v_nobs s) && Nat.ltb 1 (v_nobs s))%bool then
    let result := v_ssqdm s / (INR (v_nobs s) - 1) in Fin (if Rlt_dec result 0 then 0 else result)
  else NaN.
Definition roll_var (w : nat) (l : list (ext R)) : list (ext R) :=
  roll (if_finite add_var) (if_finite remove_var) (calc_var w) {| v_nobs := 0; v_mean := 0; v_ssqdm := 0 |} w l.
(** _zsqrt: negative values become 0. *)
Definition zsqrt (x : ext R) : ext R := match x with Fin v => Fin (if Rlt_dec v 0 then 0 else sqrt v) | _ => x end.
Definition roll_std (w : nat) (l : list (ext R)) : list (ext R) := map zsqrt (roll_var w l).

(** _roll_min_max: a queue Q of candidates, the window W, and nobs. [better a b]: a >= b for max, a <= b for min. *)
Record queues := { q : list nat; win : list nat; q_nobs : nat }.
Fixpoint drop_while {A} (p : A -> bool) (l : list A) : list A :=
  match l with [] => [] | x :: r => if p x then drop_while p r else l end.
Fixpoint take_while {A} (p : A -> bool) (l : list A) : list A :=
  match l with [] => [] | x :: r => if p x then x :: take_while p r else [] end.
Definition drop_back_while {A} (p : A -> bool) (l : list A) : list A := rev (drop_while p (rev l)).
Definition is_finite (x : ext R) : bool := match x with Fin _ => true | _ => false end.
(** A candidate gives way to the new value if it is missing or not better; a missing new value (minus or plus infinity after
    init_mm) is better than none. *)
Definition gives_way (better : R -> R -> bool) (new old : ext R) : bool :=
  match old, new with Fin o, Fin n => better n o | Fin _, _ => false | _, _ => true end.
Definition extreme_step (better : R -> R -> bool) (w : nat) (l : list (ext R)) (s : queues) (i : nat) : queues :=
  let x := nth i l NaN in
  let Q := (drop_back_while (fun j => gives_way better x (nth j l NaN)) (q s) ++ [i])%list in
  let W := (win s ++ [i])%list in
  let outside j := Nat.ltb j (start w i) in
  {| q := drop_while outside Q; win := drop_while outside W;
     q_nobs := ((if is_finite x then S (q_nobs s) else q_nobs s) - length (filter (fun j => is_finite (nth j l NaN)) (take_while outside W)))%nat |}.
Definition extreme_output (w : nat) (l : list (ext R)) (s : queues) : ext R :=
  match q s with
  | [] => NaN
  | j :: _ => if Nat.leb w (q_nobs s) then nth j l NaN else NaN
  end.
Fixpoint extreme_loop (better : R -> R -> bool) (w : nat) (l : list (ext R)) (s : queues) (rows : list nat) : list (ext R) :=
  match rows with
  | [] => []
  | i :: rest => let s := extreme_step better w l s i in extreme_output w l s :: extreme_loop better w l s rest
  end.
Definition roll_extreme (better : R -> R -> bool) (w : nat) (l : list (ext R)) : list (ext R) :=
  extreme_loop better w l {| q := []; win := []; q_nobs := 0 |} (seq 0 (length l)).
Definition roll_max : nat -> list (ext R) -> list (ext R) := roll_extreme (fun a b => if Rle_dec b a then true else false).
Definition roll_min : nat -> list (ext R) -> list (ext R) := roll_extreme (fun a b => if Rle_dec a b then true else false).

(** _get_cov with ddof = 1, after _prep_binary: a value is missing in both series if it is missing in one. *)
Definition roll_count (w : nat) (l : list (ext R)) : list (ext R) :=
  map (fun i => Fin (INR (length (filter is_finite (slice (start w i) (S i) l))))) (seq 0 (length l)).
Definition roll_cov (w : nat) (s t : list (ext R)) : list (ext R) :=
  let X := zipw (fun a b => eadd a (emul (Fin 0) b)) s t in
  let Y := zipw (fun a b => eadd b (emul (Fin 0) a)) s t in
  let count := roll_count w (zipw eadd X Y) in
  let bias_adj := zipw ediv count (map (fun c => esub c (Fin 1)) count) in
  zipw emul (zipw esub (roll_mean w (zipw emul X Y)) (zipw emul (roll_mean w X) (roll_mean w Y))) bias_adj.
