(** Model of the structural-break tests (mizarlabs/structural_breaks/).
    Simplification: the tested series contains finite exact numbers. *)
From Coq Require Import Reals String.
From Verif Require Import Series OLS_Model.
Local Open Scope nat_scope.

(** * Chu-Stinchcombe-White (cusum_chu_stinchcome_white.py) *)

(** Lines 10-12. *)
Definition ONE_SIDED_POSITIVE : string := "one_sided_positive"%string.
Definition ONE_SIDED_NEGATIVE : string := "one_sided_negative"%string.
Definition TWO_SIDED : string := "two_sided"%string.

(** get_y_t_y_n_diff, lines 81-87. *)
Definition get_y_t_y_n_diff (side_test : string) (y_t y_n : R) : R :=
  if String.eqb side_test ONE_SIDED_POSITIVE then (y_t - y_n)%R
  else if String.eqb side_test ONE_SIDED_NEGATIVE then (y_n - y_t)%R
  else Rabs (y_t - y_n).

(** One iteration of the inner loop, lines 48-59: [best] is (max_S_n_t_value, max_S_n_t_critical_value). The inner loop
    is sequential (numba parallelises only the outermost prange). A division by zero gives an infinity or NaN here. *)
Definition csw_inner (side_test : string) (ys : list R) (t : nat) (sigma2 y_t : R) (best : ext R * ext R) (j : nat)
  : ext R * ext R :=
  let n := j + 1 in
  let y_n := nth j ys 0%R in
  let d := get_y_t_y_n_diff side_test y_t y_n in
  let S_n_t := ediv (Fin d) (esqrt (Fin (sigma2 * INR (t - n))%R)) in
  if eltb (fst best) S_n_t
  then (S_n_t, esqrt (eadd (Fin (46 / 10)%R) (elog (Fin (INR (t - n))))))
  else best.

(** One iteration of the outer loop, lines 37-63. *)
Definition csw_at (side_test : string) (ys : list R) (t : nat) : ext R * ext R :=
  let sigma2 := (rsumn (t - 1) (fun i => (nth (i + 1) ys 0 - nth i ys 0) * (nth (i + 1) ys 0 - nth i ys 0)) / INR (t - 1))%R in
  let y_t := nth (t - 1) ys 0%R in
  fold_left (csw_inner side_test ys t sigma2 y_t) (seq 0 (t - 1)) (NInf, NaN).

(** The constructor (lines 103-107) and run (lines 118-126). *)
Definition csw_construct (side_test : string) : result string :=
  if existsb (String.eqb side_test) [ONE_SIDED_NEGATIVE; ONE_SIDED_POSITIVE; TWO_SIDED] then Ok side_test else Err AssertionError.
Definition csw_run (side_test : string) (s : list (Z * R)) : list (Z * (ext R * ext R)) :=
  combine (skipn 1 (map fst s)) (map (csw_at side_test (map snd s)) (seq 2 (List.length s - 1))).

(** * Chow-type Dickey-Fuller (sdfc.py) *)

(** One iteration of lines 29-37. *)
Definition dfc_at (inv : mat -> result mat) (ys : list R) (index : nat) : result (ext R) :=
  let rows := List.length ys - 1 in
  let y_diff := {| nr := rows; nc := 1; at_ := fun i _ => (nth (i + 1) ys 0 - nth i ys 0)%R |} in
  let X := {| nr := rows; nc := 1; at_ := fun i _ => (nth i ys 0 * (if Nat.ltb i index then 0 else 1))%R |} in
  do r <- get_beta_and_beta_var inv X y_diff ;;
  let '(b, v) := r in Ok (ediv (Fin (at_ b 0 0)) (esqrt (v 0 0))).

(** run, lines 77-93. *)
Definition dfc_run (inv : mat -> result mat) (min_num_samples : nat) (s : list (Z * R)) : result (list (Z * ext R)) :=
  let n := List.length s in
  let indices := seq min_num_samples (n - min_num_samples - min_num_samples) in
  do dfc <- mapM (dfc_at inv (map snd s)) indices ;;
  Ok (combine (slice min_num_samples (n - min_num_samples) (map fst s)) dfc).

(** * Supremum augmented Dickey-Fuller (sadf.py) *)

(** Names of the columns of the regressor frame. *)
Inductive col := Lag (k : nat) | YLagged | Trend | QuadTrend | LogTrend | Const.
Definition col_eqb (a b : col) : bool :=
  match a, b with
  | Lag i, Lag j => Nat.eqb i j
  | YLagged, YLagged | Trend, Trend | QuadTrend, QuadTrend | LogTrend, LogTrend | Const, Const => true
  | _, _ => false
  end.
Definition frame := list (col * list R).

(** _lag_df and the dropna of line 150 (lines 245-266): the positions, among the differences, of the rows that are kept,
    and the lag columns. Without lags the frame is empty. *)
Definition lag_rows (n lags : nat) : list nat :=
  match lags with
  | O => []
  | S _ => filter (fun p => forallb (fun l => Nat.leb l p) (seq 1 lags)) (seq 0 (n - 1))
  end.
Definition diff_at (ys : list R) (p : nat) : R := (nth (p + 1) ys 0 - nth p ys 0)%R.
Definition lag_df (ys : list R) (lags : nat) : frame :=
  map (fun l => (Lag l, map (fun p => diff_at ys (p - l)) (lag_rows (List.length ys) lags))) (seq 1 lags).

(** _get_X_y_standard_specification, lines 134-153: the frame, y, and the positions in the series of the rows. *)
Definition standard_spec (ys : list R) (lags : nat) : frame * list R * list nat :=
  let kept := lag_rows (List.length ys) lags in
  (lag_df ys lags ++ [(YLagged, map (fun p => nth p ys 0%R) kept)],
   map (diff_at ys) kept, map (fun p => p + 1) kept).

(** Lines 234-237: the column of the tested coefficient is moved to the front. *)
Definition to_front (b : col) (X : frame) : frame :=
  filter (fun c => col_eqb (fst c) b) X ++ filter (fun c => negb (col_eqb (fst c) b)) X.

(** `np.log(series)` for the martingale models; the assertion of lines 239-241 stops on a negative price (NaN).
    Simplification: so does a zero price (whose logarithm is minus infinity). *)
Definition log_series (ys : list R) : result (list R) :=
  mapM (fun v => if Rlt_dec 0 v then Ok (ln v) else Err AssertionError) ys.

(** `np.arange(1, n + 1)`. *)
Definition trend_col (n : nat) : list R := map INR (seq 1 n).
Definition square_col (n : nat) : list R := map (fun k => (INR k * INR k)%R) (seq 1 n).
Definition const_col (n : nat) : list R := map (fun _ => 1%R) (seq 1 n).

(** _get_X_y, lines 156-242. [add_const] adds a constant to the standard specifications. *)
Definition get_X_y (ys : list R) (model : string) (lags : nat) (add_const : bool) : result (frame * list R * list nat) :=
  let n := List.length ys in
  let all := seq 0 n in
  if String.eqb model "no_trend" then
    let '(X, y, pos) := standard_spec ys lags in
    let m := List.length y in
    Ok (to_front YLagged (X ++ (if add_const then [(Const, const_col m)] else [])), y, pos)
  else if String.eqb model "linear" then
    let '(X, y, pos) := standard_spec ys lags in
    let m := List.length y in
    Ok (to_front YLagged (X ++ [(Trend, trend_col m)] ++ (if add_const then [(Const, const_col m)] else [])), y, pos)
  else if String.eqb model "quadratic" then
    let '(X, y, pos) := standard_spec ys lags in
    let m := List.length y in
    Ok (to_front YLagged (X ++ [(Trend, trend_col m); (QuadTrend, square_col m)] ++ (if add_const then [(Const, const_col m)] else [])), y, pos)
  else if String.eqb model "sm_poly_1" then
    Ok (to_front QuadTrend [(Const, const_col n); (Trend, trend_col n); (QuadTrend, square_col n)], ys, all)
  else if String.eqb model "sm_poly_2" then
    do y <- log_series ys ;;
    Ok (to_front QuadTrend [(Const, const_col n); (Trend, trend_col n); (QuadTrend, square_col n)], y, all)
  else if String.eqb model "sm_exp" then
    do y <- log_series ys ;;
    Ok (to_front Trend [(Const, const_col n); (Trend, trend_col n)], y, all)
  else if String.eqb model "sm_power" then
    do y <- log_series ys ;;
    Ok (to_front LogTrend [(Const, const_col n); (LogTrend, map (fun k => ln (INR k)) (seq 1 n))], y, all)
  else Err ValueError.

(** `X[start:stop].values` and `y[start:stop].reshape(-1, 1)`. *)
Definition rows_of (X : frame) (start stop : nat) : mat :=
  {| nr := stop - start; nc := List.length X; at_ := fun i j => nth (start + i) (snd (nth j X (Const, []))) 0%R |}.
Definition y_of (y : list R) (start stop : nat) : mat :=
  {| nr := stop - start; nc := 1; at_ := fun i _ => nth (start + i) y 0%R |}.

(** `v ** 0.5`. *)
Definition pow_half (v : ext R) : ext R := match v with NInf => PInf | _ => esqrt v end.

(** Lines 114-129 for one start: [stop] is the length of the arrays given to _get_sadf_at_t. The division of line 120 is
    compiled with numba's default error model. *)
Definition adf_at (inv : mat -> result mat) (X : frame) (y : list R) (stop : nat) (model : string) (phi : R) (start : nat)
  : result (ext R) :=
  do r <- get_beta_and_beta_var inv (rows_of X start stop) (y_of y start stop) ;;
  let '(b, v) := r in
  do current_adf <- py_div (Fin (at_ b 0 0)) (pow_half (v 0 0)) ;;
  if String.eqb (substring 0 2 model) "sm" then
    let t := stop in
    let t0 := start + 1 in
    py_div (eabs current_adf) (Fin (Rpower (INR (stop - (t - t0))) phi))
  else Ok current_adf.

(** `np.max`: NaN as soon as there is one. *)
Fixpoint max_loop (m : ext R) (l : list (ext R)) : ext R :=
  match l with
  | [] => m
  | x :: r => if is_nan x then NaN else max_loop (if eltb m x then x else m) r
  end.
Definition np_max (l : list (ext R)) : result (ext R) :=
  match l with [] => Err ValueError | x :: r => Ok (if is_nan x then NaN else max_loop x r) end.

(** _get_sadf_at_t, lines 90-131. *)
Definition get_sadf_at_t (inv : mat -> result mat) (X : frame) (y : list R) (stop min_length : nat) (model : string) (phi : R)
  : result (ext R) :=
  do adf <- mapM (adf_at inv X y stop model phi) (seq 0 (stop - min_length + 1)) ;;
  np_max adf.

(** The argument `lags`: a number or a list of lags. *)
Inductive lags_arg := LagCount (n : Z) | LagList (l : list Z).

(** The constructor, lines 44-60. Python cannot compare the number min_length with a list. [phi] may be NaN. *)
Definition sadf_construct (lags : lags_arg) (min_length : Z) (phi : ext R) : result unit :=
  do _ <- raise_if (negb (eleb (Fin 0%R) phi && eleb phi (Fin 1%R))) AssertionError ;;
  match lags with
  | LagCount n => raise_if (negb (n <? min_length)%Z) AssertionError
  | LagList _ => Err TypeError
  end.

(** run, lines 62-87, with the outer loop of lines 269-297; np.empty with a negative size raises. *)
Definition sadf_run (inv : mat -> result mat) (model : string) (lags min_length : nat) (add_const : bool) (phi : R)
    (s : list (Z * R)) : result (list (Z * ext R)) :=
  do Xy <- get_X_y (map snd s) model lags add_const ;;
  let '(X, y, pos) := Xy in
  let n := List.length y in
  do _ <- raise_if (Nat.ltb n min_length) ValueError ;;
  do sadf <- mapM (fun index => get_sadf_at_t inv X y (index + 1) min_length model phi) (seq min_length (n - min_length)) ;;
  Ok (combine (skipn min_length (map (fun p => nth p (map fst s) 0%Z) pos)) sadf).
