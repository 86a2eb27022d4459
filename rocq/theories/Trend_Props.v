(** C32-C35: trend scanning. In all statements [inv] is the matrix inverse used by the regression ([inv_small] in
    Trend_Spec meets the assumptions), [junk] the content of freshly allocated memory. *)
From Coq Require Import Reals Lra.
From Verif Require Import PreludeFacts Series Label_Model OLS_Model OLS_Spec OLS_Proofs Trend_Model Trend_Spec Trend_Proofs Trend_Proofs2 Trend_Proofs3 Trend_Proofs4.
Local Open Scope nat_scope.

(** ** C32: the window with the largest absolute t-value *)

(** One row per event; see [row_ok]: the end of the window that maximises the absolute t-value, that t-value, its sign,
    and the return; nothing when fewer bars than the look-forward window remain. *)
Theorem C32_largest_t_value : forall inv, inv_sound inv -> inv_complete 2 inv ->
  forall cfg, t_step cfg = 1 -> 3 <= t_min cfg < t_window cfg ->
  forall junk events y rows, increasingZ (map fst y) ->
  snd (transform inv junk cfg events y) = Ok rows ->
  Forall2 (row_ok cfg y) (match events with None => map fst y | Some ev => ev end) rows.
Proof. exact c32. Qed.
Print Assumptions C32_largest_t_value.

(** The call returns exactly when no scanned window lies on a straight line (its t-value is then a division by zero). *)
Theorem C32_defined : forall inv, inv_sound inv -> inv_complete 2 inv ->
  forall cfg, t_step cfg = 1 -> 3 <= t_min cfg < t_window cfg ->
  forall junk events y, let ev := match events with None => map fst y | Some ev => ev end in
  increasingZ (map fst y) -> incl ev (map fst y) ->
  ((exists rows, snd (transform inv junk cfg events y) = Ok rows) <->
   (forall t k p0 w, In t ev -> nth_error y k = Some (t, p0) -> k + t_window cfg <= length y ->
      t_min cfg <= w < t_window cfg -> ~ straight y k w))
  /\ (forall e, snd (transform inv junk cfg events y) = Err e -> e = ZeroDivisionError).
Proof. exact c32_defined. Qed.
Print Assumptions C32_defined.

(** Unknown events are rejected. *)
Theorem C32_unknown_events : forall inv junk cfg ev y, ~ incl ev (map fst y) ->
  snd (transform inv junk cfg (Some ev) y) = Err AssertionError.
Proof. exact c32_unknown. Qed.
Print Assumptions C32_unknown_events.

(** The constructor accepts exactly the configurations with a minimum length below the window. *)
Theorem C32_constructor : forall cfg,
  (construct cfg = Ok cfg <-> t_min cfg < t_window cfg) /\ (construct cfg = Err AssertionError <-> t_window cfg <= t_min cfg).
Proof. exact c32_construct. Qed.
Print Assumptions C32_constructor.

Definition ex_cfg : trend_cfg := {| t_window := 4; t_min := 3; t_step := 1 |}.
Definition ex_y : list (Z * R) := [(10%Z, 3%R); (20%Z, 2%R); (30%Z, 2%R); (40%Z, 2%R); (50%Z, 7%R)].
Example C32_case : increasingZ (map fst ex_y) /\
  exists r, snd (transform inv_small (fun _ _ => NaN) ex_cfg (Some [10%Z]) ex_y) = Ok [r] /\
    tr_end r = Some 30%Z /\ tr_label r = Fin (-1)%R /\ tr_return r = Fin (2 / 3 - 1)%R.
Proof. exact (conj ex_inc ex_trend). Qed.

(** ** C33: determinism *)

(** With step 1 the result does not depend on the content of fresh memory. *)
Theorem C33_step_one : forall inv cfg, t_step cfg = 1 -> forall junk junk' events y,
  transform inv junk cfg events y = transform inv junk' cfg events y.
Proof. exact c33. Qed.
Print Assumptions C33_step_one.

(** With a larger step it does, for every such configuration. *)
Theorem C33_larger_step_refuted : forall inv cfg, inv_sound inv -> inv_complete 2 inv ->
  2 <= t_step cfg -> 3 <= t_min cfg -> t_min cfg + 2 <= t_window cfg ->
  exists events y junk junk' rows rows',
    snd (transform inv junk cfg events y) = Ok rows /\ snd (transform inv junk' cfg events y) = Ok rows' /\ rows <> rows'.
Proof. exact c33_refuted. Qed.
Print Assumptions C33_larger_step_refuted.

(** ** C34: history *)

(** With given events a call is not affected by earlier calls. *)
Theorem C34_given_events : forall inv junk cfg ev history y,
  transform inv junk cfg (after inv junk cfg (Some ev) history) y = transform inv junk cfg (Some ev) y.
Proof. exact c34. Qed.
Print Assumptions C34_given_events.

(** Without given events every later call uses the times of the first series. *)
Theorem C34_first_series_remembered : forall inv junk cfg y1 history y,
  transform inv junk cfg (after inv junk cfg None (y1 :: history)) y = transform inv junk cfg (Some (map fst y1)) y.
Proof. exact c34_mem. Qed.
Print Assumptions C34_first_series_remembered.

(** So a second series that a fresh object handles can be rejected. *)
Theorem C34_no_events_refuted : forall inv junk cfg, 2 <= t_window cfg ->
  exists y1 y2 rows, snd (transform inv junk cfg None y2) = Ok rows /\
    snd (transform inv junk cfg (after inv junk cfg None [y1]) y2) = Err AssertionError.
Proof. exact c34_refuted. Qed.
Print Assumptions C34_no_events_refuted.

(** ** C35: scale and shift *)

(** Replacing every price p by a*p + b, for a not zero: same events, same ends, t-values and labels multiplied by the
    sign of a (so unchanged for a > 0 and negated for a < 0), and the same exception if there is one. *)
Theorem C35_scale_and_shift : forall inv, inv_sound inv -> inv_complete 2 inv ->
  forall cfg, t_step cfg = 1 -> 3 <= t_min cfg < t_window cfg ->
  forall a b, a <> 0%R -> forall junk events y,
  match snd (transform inv junk cfg events y), snd (transform inv junk cfg events (affine a b y)) with
  | Ok rows, Ok rows' => Forall2 (row_times (sgn a)) rows rows'
  | Err e, Err e' => e = e'
  | _, _ => False
  end.
Proof. exact c35. Qed.
Print Assumptions C35_scale_and_shift.
Example C35_case : sgn 3 = 1%R /\ sgn (-1) = (-1)%R.
Proof. unfold sgn. split; repeat (destruct (Rlt_dec _ _); try lra). Qed.
