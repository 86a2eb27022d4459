(** Vocabulary for the trend scanner with any step and any minimum length. *)
From Coq Require Import Reals.
From Verif Require Import Series OLS_Model OLS_Spec Label_Model Trend_Model Trend_Spec.
Local Open Scope nat_scope.

(** The lengths that are tried: the minimum length, then every step-th one, below the window. *)
Definition tried (cfg : trend_cfg) (w : nat) : Prop := w < t_window cfg /\ exists j, w = t_min cfg + j * t_step cfg.
(** [w] is the length, among those tried, whose t-value is largest in absolute value, the shortest one on ties. *)
Definition best_tried (cfg : trend_cfg) (y : list (Z * R)) (k w : nat) : Prop :=
  tried cfg w /\
  (forall v, tried cfg v -> (Rabs (t_of y k v) <= Rabs (t_of y k w))%R) /\
  (forall v, tried cfg v -> v < w -> (Rabs (t_of y k v) < Rabs (t_of y k w))%R).

(** The event at time [t] is at bar [k] of price [p0]; it is followed by enough bars. *)
Definition event_at (y : list (Z * R)) (t : Z) (k : nat) (p0 : R) : Prop := nth_error y k = Some (t, p0).
Definition enough_bars (cfg : trend_cfg) (y : list (Z * R)) (t : Z) : Prop := exists k p0, event_at y t k p0 /\ k + t_window cfg <= length y.
(** A length is tried at which the bars from the event on lie on a straight line. *)
Definition meets_line (cfg : trend_cfg) (y : list (Z * R)) (t : Z) : Prop :=
  exists k p0 w, event_at y t k p0 /\ k + t_window cfg <= length y /\ tried cfg w /\ 3 <= w /\ straight y k w.

(** Rows without a result, and with the result of the [w] bars from the event on. *)
Definition empty_row (t : Z) (r : trend_row) : Prop := tr_start r = t /\ tr_end r = None /\ tr_t r = NaN /\ tr_return r = NaN /\ tr_label r = NaN.
Definition ends_after (y : list (Z * R)) (t : Z) (k : nat) (p0 : R) (w : nat) (r : trend_row) : Prop :=
  tr_start r = t /\ exists te pe, nth_error y (k + w - 1) = Some (te, pe) /\ tr_end r = Some te /\ (p0 <> 0%R -> tr_return r = Fin (pe / p0 - 1)%R).

(** The events of a call. *)
Definition events_of (events : option (list Z)) (y : list (Z * R)) : list Z := match events with None => map fst y | Some ev => ev end.
(** A numerical inverse that raises nothing but LinAlgError on square matrices. *)
Definition inv_raises (inv : mat -> result mat) : Prop := forall M e, nr M = nc M -> inv M = Err e -> e = LinAlgError.
(** Fresh memory that happens to be filled with zeros. *)
Definition zeros (n i : nat) : ext R := Fin 0%R.

(** The row of an event when the fresh memory holds zeros, for a minimum of three bars or more. *)
Definition coarse_row (cfg : trend_cfg) (y : list (Z * R)) (t : Z) (r : trend_row) : Prop :=
  exists k p0, event_at y t k p0 /\
    ((length y < k + t_window cfg /\ empty_row t r) \/
     (k + t_window cfg <= length y /\
      exists w, best_tried cfg y k w /\ ends_after y t k p0 w r /\ tr_t r = Fin (t_of y k w) /\ tr_label r = Fin (sgn (t_of y k w)))).
(** The row of an event whatever the memory holds: the t-value is that of a length tried, or else the content [memory] of fresh memory. *)
Definition memory_row (cfg : trend_cfg) (memory : nat -> ext R) (y : list (Z * R)) (t : Z) (r : trend_row) : Prop :=
  exists k p0, event_at y t k p0 /\
    ((length y < k + t_window cfg /\ empty_row t r) \/
     (k + t_window cfg <= length y /\
      exists w, t_min cfg <= w < t_window cfg /\ ends_after y t k p0 w r /\ tr_label r = np_sign (tr_t r) /\
        (tried cfg w -> tr_t r = Fin (t_of y k w)) /\ (~ tried cfg w -> tr_t r = memory (w - t_min cfg)))).
(** The row of an event for a minimum of two bars: the event ends with the next bar and has neither t-value nor label. *)
Definition pair_row (cfg : trend_cfg) (y : list (Z * R)) (t : Z) (r : trend_row) : Prop :=
  exists k p0, event_at y t k p0 /\
    ((length y < k + t_window cfg /\ empty_row t r) \/
     (k + t_window cfg <= length y /\ ends_after y t k p0 2 r /\ tr_t r = NaN /\ tr_label r = NaN)).
