(** Vocabulary for the structural-break properties. *)
From Coq Require Import Reals String.
From Verif Require Import Series OLS_Model OLS_Spec.
Local Open Scope nat_scope.

(** ** Chu-Stinchcombe-White. Observations are numbered from 1. *)
Definition obs (s : list (Z * R)) (k : nat) : R := nth (k - 1) (map snd s) 0%R.
(** Mean squared increment of the first [t] observations. *)
Definition sigma2 (s : list (Z * R)) (t : nat) : R :=
  (rsumn (t - 1) (fun i => (obs s (i + 2) - obs s (i + 1)) ^ 2) / INR (t - 1))%R.
(** The first [t] observations are all equal. *)
Definition flat (s : list (Z * R)) (t : nat) : Prop := forall i, 1 <= i < t -> obs s (i + 1) = obs s i.

Inductive side := Positive | Negative | TwoSided.
Definition side_name (d : side) : string :=
  match d with Positive => "one_sided_positive" | Negative => "one_sided_negative" | TwoSided => "two_sided" end.
Definition departure (d : side) (a b : R) : R :=
  match d with Positive => (a - b)%R | Negative => (b - a)%R | TwoSided => Rmax (a - b) (b - a) end.
(** Standardised departure of observation [t] from observation [n]. *)
Definition csw (d : side) (s : list (Z * R)) (t n : nat) : R :=
  (departure d (obs s t) (obs s n) / (sqrt (sigma2 s t) * sqrt (INR (t - n))))%R.

(** ** t-statistics *)

(** [v] is the t-statistic of the first regressor: the coefficient of a least-squares fit over its standard error. *)
Definition t_stat (X y : mat) (v : R) : Prop :=
  exists b N, inverse_of (gram X) N /\ (forall c, (sse X y b <= sse X y c)%R) /\
    v = (b 0%nat / sqrt (sse X y b / (INR (nr X) - INR (nc X)) * at_ N 0 0))%R.

(** The regression has no t-statistic: no unique fit, or an exact one. *)
Definition degenerate (X y : mat) : Prop :=
  (forall N, ~ inverse_of (gram X) N) \/ exists b, sse X y b = 0%R.

(** ** SADF: the regression of each model *)

Definition is_standard (model : string) : bool :=
  String.eqb model "no_trend" || String.eqb model "linear" || String.eqb model "quadratic".
Definition is_martingale (model : string) : bool :=
  String.eqb model "sm_poly_1" || String.eqb model "sm_poly_2" || String.eqb model "sm_exp" || String.eqb model "sm_power".

(** A known model; the standard ones need at least one lag. *)
Definition valid (model : string) (lags : nat) : Prop :=
  (is_standard model = true /\ 1 <= lags) \/ is_martingale model = true.

(** Number of usable rows for [n] observations. *)
Definition n_rows (model : string) (lags n : nat) : nat := if is_standard model then n - 1 - lags else n.
(** Position in the series of row [r]. *)
Definition row_pos (model : string) (lags r : nat) : nat := if is_standard model then lags + 1 + r else r.

(** Regressors of row [r] (the tested one first) and its response, from the observations [x]. *)
Definition regressors (model : string) (lags : nat) (const : bool) (x : nat -> R) (r : nat) : list R :=
  let i := row_pos model lags r in
  let k := INR (r + 1) in
  let c := if const then [1%R] else [] in
  let ar := x (i - 1) :: map (fun l => Rminus (x (i - l)) (x (i - l - 1))) (seq 1 lags) in
  if String.eqb model "no_trend" then ar ++ c
  else if String.eqb model "linear" then ar ++ [k] ++ c
  else if String.eqb model "quadratic" then ar ++ [k; (k * k)%R] ++ c
  else if String.eqb model "sm_poly_1" then [(k * k)%R; 1%R; k]
  else if String.eqb model "sm_poly_2" then [(k * k)%R; 1%R; k]
  else if String.eqb model "sm_exp" then [k; 1%R]
  else [ln k; 1%R].
Definition response (model : string) (lags : nat) (x : nat -> R) (r : nat) : R :=
  let i := row_pos model lags r in
  if is_standard model then Rminus (x i) (x (i - 1))
  else if String.eqb model "sm_poly_1" then x i else ln (x i).
Definition n_cols (model : string) (lags : nat) (const : bool) : nat :=
  List.length (regressors model lags const (fun _ => 0%R) 0).

(** The regression on rows [start] .. [stop] - 1. *)
Definition X_of (model : string) (lags : nat) (const : bool) (x : nat -> R) (start stop : nat) : mat :=
  {| nr := stop - start; nc := n_cols model lags const; at_ := fun i j => nth j (regressors model lags const x (start + i)) 0%R |}.
Definition Y_of (model : string) (lags : nat) (x : nat -> R) (start stop : nat) : mat :=
  {| nr := stop - start; nc := 1; at_ := fun i _ => response model lags x (start + i) |}.

(** Values of a series by position. *)
Definition vals (s : list (Z * R)) (i : nat) : R := nth i (map snd s) 0%R.

(** The statistic of a window as the code computes it from its t-statistic: penalised for the martingale models. *)
Definition code_stat (model : string) (phi : R) (start : nat) (t : R) : R :=
  if is_martingale model then (Rabs t / Rpower (INR (start + 1)) phi)%R else t.

(** [v] is the largest of the statistics of the windows [start] .. [stop] - 1 of at least [m] rows. *)
Definition largest_over_starts (stat : nat -> R -> Prop) (m stop : nat) (v : R) : Prop :=
  (exists start, start + m <= stop /\ stat start v) /\
  (forall start, start + m <= stop -> exists u, stat start u /\ (u <= v)%R).

(** The documented statistic of a window of a martingale model: ADF / (t - t0) ^ phi. [t] = [stop] and [t0] = [start] + 1;
    [k] = 1 reads the exponent's base as t - t0, [k] = 0 as the number of rows of the window. *)
Definition documented_stat (phi : R) (k stop start : nat) (t : R) : R := (Rabs t / Rpower (INR (stop - start - k)) phi)%R.

(** ** Chow-type Dickey-Fuller: regression of the increments on the previous level from position [t] on (zero before). *)
Definition level (s : list (Z * R)) (t i : nat) : R := if Nat.ltb i t then 0%R else nth i (map snd s) 0%R.
Definition incr (s : list (Z * R)) (i : nat) : R := (nth (i + 1) (map snd s) 0 - nth i (map snd s) 0)%R.
Definition chow_sxx (s : list (Z * R)) (t : nat) : R := rsumn (List.length s - 1) (fun i => (level s t i * level s t i)%R).
Definition chow_slope (s : list (Z * R)) (t : nat) : R :=
  (rsumn (List.length s - 1) (fun i => level s t i * incr s i) / chow_sxx s t)%R.
Definition chow_sse (s : list (Z * R)) (t : nat) : R :=
  rsumn (List.length s - 1) (fun i => let e := (incr s i - chow_slope s t * level s t i) in e * e)%R.
(** Slope over its standard error. *)
Definition chow_t (s : list (Z * R)) (t : nat) : R :=
  (chow_slope s t / sqrt (chow_sse s t / (INR (List.length s) - 2) / chow_sxx s t))%R.
