(** Model of the trend scanner (mizarlabs/transformers/targets/trend_scanning.py).
    Simplification: prices are finite exact numbers. *)
From Coq Require Import Reals.
From Verif Require Import Series Boot_Model OLS_Model Label_Model.
Local Open Scope nat_scope.

(** Lines 245-253: the regressors, a constant and 0, 1, 2, ... *)
Definition trend_design (n : nat) : mat :=
  {| nr := n; nc := 2; at_ := fun i j => match j with O => 1%R | _ => INR i end |}.

(** Lines 238-263 for one window: t-value of the trend coefficient. The division is compiled with numba's default error
    model. Simplification: the exception stops the scan (inside a parallel region numba may report it later). *)
Definition window_t (inv : mat -> result mat) (ys : list R) : result (ext R) :=
  do r <- get_beta_and_beta_var inv (trend_design (length ys)) (colvec ys) ;;
  let '(b, v) := r in py_div (Fin (at_ b 1 0)) (esqrt (v 1 1)).

(** `np.arange(a, b, step)`; a zero step raises. *)
Definition arange (a b step : nat) : result (list nat) :=
  match step with
  | O => Err ValueError
  | S _ => Ok (map (fun k => a + k * step) (seq 0 ((b - a + (step - 1)) / step)))
  end.

(** `np.argmax`: position of the first largest element, NaN counting as largest. *)
Fixpoint argmax_loop (best : ext R) (bi i : nat) (l : list (ext R)) : nat :=
  match l with
  | [] => bi
  | x :: r => if is_nan x then i else if eltb best x then argmax_loop x i (S i) r else argmax_loop best bi (S i) r
  end.
Definition np_argmax (l : list (ext R)) : result nat :=
  match l with
  | [] => Err ValueError
  | x :: r => Ok (if is_nan x then 0 else argmax_loop x 0 1 r)
  end.

(** _get_t_val_and_event_end_time_index_at_index, lines 212-268. [junk] is the content of the memory returned by np.empty. *)
Definition scan_window (inv : mat -> result mat) (junk : nat -> ext R) (ys : list R) (min_len step : nat) : result (ext R * nat) :=
  do windows <- arange min_len (length ys) step ;;
  do ts <- foldM (fun arr w => do t <- window_t inv (firstn w ys) ;; Ok (set_at arr (w - min_len) t))
             (map junk (seq 0 (length ys - min_len))) windows ;;
  do i <- np_argmax (map eabs ts) ;;
  do t <- get ts i ;;
  Ok (t, i).

(** One iteration of lines 186-208: (t-value, end position), nothing when there are too few bars. Every iteration writes
    its own entry of the two result arrays. Simplification: min_sample_length is at least 1 on line 204. *)
Definition scan_index (inv : mat -> result mat) (junk : nat -> ext R) (ys : list R) (index min_len window step : nat)
  : result (option (ext R * nat)) :=
  let sub := firstn window (skipn index ys) in
  if Nat.eqb (length sub) window then
    do r <- scan_window inv junk sub min_len step ;;
    let '(t, i) := r in Ok (Some (t, index + i + min_len - 1))
  else Ok None.

Record trend_cfg := { t_window : nat; t_min : nat; t_step : nat }.

(** The assertion of the constructor, lines 51-54. *)
Definition construct (cfg : trend_cfg) : result trend_cfg :=
  if Nat.ltb (t_min cfg) (t_window cfg) then Ok cfg else Err AssertionError.

Record trend_row := { tr_start : Z; tr_end : option Z; tr_t : ext R; tr_return : ext R; tr_label : ext R }.

(** Lines 132-146 for one event. *)
Definition trend_row_of (y : list (Z * R)) (t0 : Z) (p0 : nat) (s : option (ext R * nat)) : result trend_row :=
  match s with
  | None => Ok {| tr_start := t0; tr_end := None; tr_t := NaN; tr_return := NaN; tr_label := NaN |}
  | Some (t, e) =>
    do re <- get y e ;;
    do r0 <- get y p0 ;;
    Ok {| tr_start := t0; tr_end := Some (fst re); tr_t := t;
          tr_return := esub (ediv (Fin (snd re)) (Fin (snd r0))) (Fin 1%R); tr_label := np_sign t |}
  end.

(** transform, lines 84-147. The first argument is the attribute `t_events` of the object, which the call may set.
    [junk e] is the uninitialised memory met while scanning event number [e].
    Simplifications: the index and the events have no repetitions; the events are given as numpy datetimes (np.datetime64), as in the
    project's test: whether the sets on lines 68 and 80 identify them with pandas timestamps depends on the version of numpy. *)
Definition transform (inv : mat -> result mat) (junk : nat -> nat -> ext R) (cfg : trend_cfg)
    (events : option (list Z)) (y : list (Z * R)) : option (list Z) * result (list trend_row) :=
  let index := map fst y in
  let known := match events with
               | None => true
               | Some ev => forallb (fun t => existsb (Z.eqb t) index) ev
               end in
  if negb known then (events, Err AssertionError) else
  let ev := match events with None => index | Some ev => ev end in
  (Some ev,
   mapM (fun r => let '(n, t) := r in
           match position t index with
           | None => Err KeyError
           | Some p =>
             do s <- scan_index inv (junk n) (map snd y) p (t_min cfg) (t_window cfg) (t_step cfg) ;;
             trend_row_of y t p s
           end) (combine (seq 0 (length ev)) ev)).
