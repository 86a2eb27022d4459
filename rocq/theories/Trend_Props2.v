(** C112: the trend scanner with any step and any minimum length. *)
From Coq Require Import Reals Lra.
From Verif Require Import Series DailyVol_Proofs OLS_Model OLS_Spec Label_Model Trend_Model Trend_Spec Trend_Spec2 Trend_Proofs3 Trend_Proofs4 Trend_Proofs5.
Local Open Scope nat_scope.

(** With any step from 1 on and a minimum of three bars, the row of an event has the t-value of a length tried and ends there, or else
    the t-value is what fresh memory held. *)
Theorem C112_tried_or_memory : forall inv, inv_sound inv -> inv_complete 2 inv ->
  forall cfg, 3 <= t_min cfg < t_window cfg -> 1 <= t_step cfg ->
  forall junk events y rows, increasingZ (map fst y) -> snd (transform inv junk cfg events y) = Ok rows ->
  forall n t r, nth_error (events_of events y) n = Some t -> nth_error rows n = Some r -> memory_row cfg (junk n) y t r.
Proof. intros inv Hs Hc cfg Hm H1 junk events y rows Hi H n t r. now apply (c112_memory inv junk cfg events y rows n t r). Qed.
Print Assumptions C112_tried_or_memory.

(** When fresh memory holds zeros, the result is that of the best length tried; it is missing without enough bars. The call raises
    ZeroDivisionError if some length tried meets a straight line, and succeeds otherwise. *)
Theorem C112_best_of_tried : forall inv, inv_sound inv -> inv_complete 2 inv ->
  forall cfg, 3 <= t_min cfg < t_window cfg -> 1 <= t_step cfg ->
  forall events y, increasingZ (map fst y) -> incl (events_of events y) (map fst y) ->
  (forall rows, snd (transform inv zeros cfg events y) = Ok rows -> Forall2 (coarse_row cfg y) (events_of events y) rows) /\
  ((exists t, In t (events_of events y) /\ meets_line cfg y t) -> snd (transform inv zeros cfg events y) = Err ZeroDivisionError) /\
  ((forall t, In t (events_of events y) -> ~ meets_line cfg y t) -> exists rows, snd (transform inv zeros cfg events y) = Ok rows).
Proof. intros inv Hs Hc cfg Hm H1 events y. now apply c112_coarse. Qed.
Print Assumptions C112_best_of_tried.

(** With a minimum of two bars no event ever gets a label. *)
Theorem C112_two_bars_refuted : forall inv, inv_sound inv -> inv_complete 2 inv ->
  forall cfg, t_min cfg = 2 -> 3 <= t_window cfg -> 1 <= t_step cfg ->
  forall junk events y, increasingZ (map fst y) -> incl (events_of events y) (map fst y) ->
  (forall rows, snd (transform inv junk cfg events y) = Ok rows -> Forall2 (pair_row cfg y) (events_of events y) rows) /\
  ((exists t, In t (events_of events y) /\ meets_line cfg y t) -> snd (transform inv junk cfg events y) = Err ZeroDivisionError) /\
  ((forall t, In t (events_of events y) -> ~ meets_line cfg y t) -> exists rows, snd (transform inv junk cfg events y) = Ok rows).
Proof. intros inv Hs Hc cfg Hm HL H1 junk events y. now apply c112_pair. Qed.
Print Assumptions C112_two_bars_refuted.

(** With a minimum of one bar the call fails as soon as one event is followed by enough bars. *)
Theorem C112_one_bar_refuted : forall inv, inv_sound inv -> inv_raises inv ->
  forall cfg, t_min cfg = 1 -> 2 <= t_window cfg -> 1 <= t_step cfg ->
  forall junk events y, increasingZ (map fst y) -> incl (events_of events y) (map fst y) ->
  ((exists t, In t (events_of events y) /\ enough_bars cfg y t) -> snd (transform inv junk cfg events y) = Err LinAlgError) /\
  ((forall t, In t (events_of events y) -> ~ enough_bars cfg y t) ->
     exists rows, snd (transform inv junk cfg events y) = Ok rows /\ Forall2 empty_row (events_of events y) rows).
Proof. intros inv Hs Hr cfg Hm HL H1 junk events y. now apply c112_one. Qed.
Print Assumptions C112_one_bar_refuted.

(** So does a step of zero. *)
Theorem C112_step_zero : forall inv junk cfg, t_step cfg = 0 ->
  forall events y, increasingZ (map fst y) -> incl (events_of events y) (map fst y) ->
  ((exists t, In t (events_of events y) /\ enough_bars cfg y t) -> snd (transform inv junk cfg events y) = Err ValueError) /\
  ((forall t, In t (events_of events y) -> ~ enough_bars cfg y t) ->
     exists rows, snd (transform inv junk cfg events y) = Ok rows /\ Forall2 empty_row (events_of events y) rows).
Proof. intros inv junk cfg Hs events y. now apply c112_zero. Qed.
Print Assumptions C112_step_zero.

(** The constructor accepts all of these settings. *)
Definition with_settings (window minimum step : nat) : trend_cfg := {| t_window := window; t_min := minimum; t_step := step |}.
Example C112_accepted : construct (with_settings 6 3 2) = Ok (with_settings 6 3 2) /\ construct (with_settings 3 2 1) = Ok (with_settings 3 2 1) /\
  construct (with_settings 2 1 1) = Ok (with_settings 2 1 1) /\ construct (with_settings 6 3 0) = Ok (with_settings 6 3 0).
Proof. repeat split; reflexivity. Qed.
Lemma inv_small_raises : inv_raises inv_small.
Proof.
  intros M e Hsq. unfold inv_small. rewrite Hsq, Nat.eqb_refl. cbn [negb].
  destruct (nc M) as [|[|[|n]]]; try (intros E; now injection E as <-); cbv zeta; destruct (Req_EM_T _ 0); try discriminate; intros E; now injection E as <-.
Qed.
Definition ex_series : list (Z * R) := [(10%Z, 3%R); (20%Z, 2%R); (30%Z, 2%R); (40%Z, 2%R); (50%Z, 7%R); (60%Z, 7%R)].
Lemma ex_series_increasing : increasingZ (map fst ex_series).
Proof. cbn. repeat constructor. Qed.
Lemma ex_event : event_at ex_series 10 0 3%R.
Proof. reflexivity. Qed.
(** Lengths 3 and 5 are tried; neither meets a line. *)
Example C112_case : increasingZ (map fst ex_series) /\ incl (events_of (Some [10%Z]) ex_series) (map fst ex_series) /\
  enough_bars (with_settings 6 3 2) ex_series 10 /\ tried (with_settings 6 3 2) 3 /\ ~ tried (with_settings 6 3 2) 4 /\ tried (with_settings 6 3 2) 5 /\
  ~ meets_line (with_settings 6 3 2) ex_series 10.
Proof.
  split; [exact ex_series_increasing|]. split; [intros x [<-|[]]; now left|]. split; [exists 0, 3%R; split; [reflexivity|cbn; lia]|].
  unfold tried. cbn [t_window t_min t_step with_settings].
  split; [split; [lia|now exists 0]|]. split; [intros (_ & j & E); lia|]. split; [split; [lia|now exists 1]|].
  intros (k & p0 & w & Ev & _ & (Hw & j & Ej) & _ & St). cbn [t_window t_min t_step with_settings] in *. unfold event_at in Ev.
  assert (k = 0) as ->.
  { destruct k as [|k]; auto. exfalso. do 6 (destruct k as [|k]; [cbn in Ev; discriminate|]). cbn in Ev. discriminate. }
  assert (w = 3 \/ w = 5) as [-> | ->] by lia; unfold straight, rss, slope, sxx, mean, price in St; cbn in St; field_simplify in St; lra.
Qed.
Example C112_case_small : inv_sound inv_small /\ inv_complete 2 inv_small /\ inv_raises inv_small /\
  enough_bars (with_settings 3 2 1) ex_series 10 /\ enough_bars (with_settings 2 1 1) ex_series 10 /\ enough_bars (with_settings 6 3 0) ex_series 10 /\
  ~ enough_bars (with_settings 6 3 0) ex_series 60.
Proof.
  split; [exact inv_small_sound|]. split; [exact inv_small_complete_2|]. split; [exact inv_small_raises|].
  split; [exists 0, 3%R; split; [reflexivity|cbn; lia]|]. split; [exists 0, 3%R; split; [reflexivity|cbn; lia]|].
  split; [exists 0, 3%R; split; [reflexivity|cbn; lia]|]. intros (k & p0 & Ev & Hk). cbn in Hk. assert (k = 0) as -> by lia. discriminate.
Qed.
