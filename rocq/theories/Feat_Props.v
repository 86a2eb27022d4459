(** Features and rule-based predictors (C39-C43, C60, C64-C66, C69). *)
From Coq Require Import Reals Lra Lia ZArith String.
From Verif Require Import Series Feat_Model Feat_Spec Feat_Proofs Feat_Proofs2 Feat_Proofs3 Feat_Proofs4 Feat_Proofs5 Feat_Proofs6 Feat_Proofs7 Feat_Proofs8.
Local Open Scope nat_scope.

(** A small frame for the examples. *)
Definition bars : frame :=
  {| f_index := [0; 60; 90; 200]%Z;
     f_cols := [("close"%string, map Fin [1; 1; 2; 1.5]%R); ("high"%string, map Fin [2; 3; 2; 4]%R); ("low"%string, map Fin [1; 1; 1; 1.5]%R);
                ("volume"%string, map Fin [1; 2; 3; 4]%R); ("buy"%string, map Fin [1; 0.5; 2; 1]%R); ("sell"%string, map Fin [0; 1.5; 1; 3]%R)] |}.
Example bars_ok : well_formed bars /\ NoDup (f_index bars).
Proof. split; [|repeat constructor; cbn; intuition lia]. intros c Hc. cbn in Hc. repeat destruct Hc as [<-|Hc]; try reflexivity. easy. Qed.

(** ** C39: moving-average crossover *)

(** Without filling, the side is the direction of the crossing in that row (0 if there is none). *)
Theorem C39_crossings : forall fast slow name X c, 1 <= fast -> 1 <= slow -> NoDup (f_index X) -> well_formed X -> lookup name X = Some c ->
  exists side, ma_crossover fast slow false name X = Ok (map Fin side) /\ List.length side = List.length (f_index X) /\
    forall i d, nth_error side i = Some d -> direction fast slow c i d.
Proof. exact c39_plain. Qed.
Print Assumptions C39_crossings.

(** With filling, it is the direction of the most recent crossing, and 0 before the first. *)
Theorem C39_most_recent : forall fast slow name X c, 1 <= fast -> 1 <= slow -> NoDup (f_index X) -> well_formed X -> lookup name X = Some c ->
  exists side, ma_crossover fast slow true name X = Ok (map Fin side) /\ List.length side = List.length (f_index X) /\
    forall i d, nth_error side i = Some d -> most_recent_direction fast slow c i d.
Proof. exact c39_filled. Qed.
Print Assumptions C39_most_recent.
Example C39_case : NoDup (f_index bars) /\ well_formed bars /\ lookup "close" bars <> None /\ up_crossing 1 2 (map Fin [1; 1; 2; 1.5]%R) 2 /\
  down_crossing 1 2 (map Fin [1; 1; 2; 1.5]%R) 3.
Proof.
  destruct bars_ok as [H1 H2]. repeat split; auto; [discriminate| |]; [exists 1|exists 2]; unfold moving_average, last_values; cbn; do 4 eexists; repeat split; unfold average, rsum; cbn; lra.
Qed.

Theorem C39_exclusive : forall fast slow c i, up_crossing fast slow c i -> down_crossing fast slow c i -> False.
Proof. exact crossings_exclusive. Qed.
Print Assumptions C39_exclusive.

(** For every input, repeated timestamps and missing values included, the side is -1, 0 or 1. *)
Theorem C39_values : forall fast slow fill name X out, ma_crossover fast slow fill name X = Ok out ->
  Forall (fun x => exists c, In c [(-1)%R; 0%R; 1%R] /\ x = Fin c) out.
Proof. exact ma_sides. Qed.
Print Assumptions C39_values.

(** ** C40: no look-ahead *)
Theorem C40_features : forall w close volume high low buy sell,
  no_look_ahead (local_max_to_close w) /\ no_look_ahead (roll_measure w close) /\ no_look_ahead (roll_impact w close volume) /\
  no_look_ahead (parkinson w high low) /\ no_look_ahead (corwin_schultz w high low) /\ no_look_ahead (beckers_parkinson w high low) /\
  no_look_ahead (kyle_lambda w close volume) /\ no_look_ahead (amihud_lambda w close volume) /\ no_look_ahead (hasbrouck_lambda w close volume) /\
  no_look_ahead (vpin w volume buy sell).
Proof.
  intros. repeat split; [apply local_max_causal|apply roll_causal|apply impact_causal|apply parkinson_causal|apply corwin_causal|apply beckers_causal|
    apply kyle_causal|apply amihud_causal|apply hasbrouck_causal|apply vpin_causal].
Qed.
Print Assumptions C40_features.

Theorem C40_z_scores : forall key w T, get_transformer key w = Ok T -> no_look_ahead T /\ one_per_row T.
Proof. exact factory_causal. Qed.
Print Assumptions C40_z_scores.
Example C40_keys : Forall (fun k => exists T, get_transformer k 5 = Ok T) ["bar_arrival_time"; "buy_sell_diff"; "average_buy_size"; "high_to_low_ratio"]%string.
Proof. repeat constructor; eexists; reflexivity. Qed.

Theorem C40_exponential : forall fast slow normalised name volume_type,
  no_look_ahead (ewma_difference fast slow normalised name) /\ no_look_ahead (buy_sell_imbalance fast slow volume_type).
Proof. split; [apply ewma_causal|apply imbalance_causal]. Qed.
Print Assumptions C40_exponential.

(** Transformers and predictors built on a TA-Lib function have no look-ahead if that function has none. *)
Theorem C40_technical : forall ta, no_look_ahead_series ta -> forall name th cfg period w,
  no_look_ahead (ta_transform ta name) /\ no_look_ahead (macd_crossover ta name) /\ no_look_ahead (mean_reversion_predict ta th) /\
  no_look_ahead (bar_rsi_predict ta cfg) /\ no_look_ahead (rsi_confirmation_predict ta th period w).
Proof.
  intros ta H name th cfg period w. repeat split; [now apply ta_causal|now apply macd_causal|now apply mean_reversion_causal|now apply bar_rsi_causal|now apply rsi_confirmation_causal].
Qed.
Print Assumptions C40_technical.
Example C40_oracle : no_look_ahead_series (rolling 14 agg_mean) /\ no_look_ahead_series (ewm_mean 14).
Proof. split; intros l n; [apply rolling_firstn|apply ewm_mean_firstn]. Qed.

(** The crossover has no look-ahead if no two bars have the same timestamp... *)
Theorem C40_crossover : forall fast slow fill name X n, well_formed X -> NoDup (f_index X) ->
  ma_crossover fast slow fill name (head n X) = match ma_crossover fast slow fill name X with Ok out => Ok (firstn n out) | Err e => Err e end.
Proof. exact crossover_causal. Qed.
Print Assumptions C40_crossover.
(** ... but with repeated timestamps the side of a row depends on a later row. *)
Theorem C40_crossover_repeated_timestamps_refuted :
  ~ (forall fast slow fill name, no_look_ahead (ma_crossover fast slow fill name)).
Proof.
  intros H. destruct crossover_duplicates as [H1 H2]. specialize (H 1 2 false "close"%string two_bars 2). rewrite H1, H2 in H.
  assert (W : well_formed two_bars) by (intros c [<-|[]]; reflexivity). specialize (H W). cbn in H. injection H as H. lra.
Qed.
Print Assumptions C40_crossover_repeated_timestamps_refuted.

(** One value for each row. *)
Theorem C40_rows : forall w close volume high low buy sell fast slow normalised volume_type,
  one_per_row (local_max_to_close w) /\ one_per_row (roll_measure w close) /\ one_per_row (roll_impact w close volume) /\
  one_per_row (parkinson w high low) /\ one_per_row (corwin_schultz w high low) /\ one_per_row (beckers_parkinson w high low) /\
  one_per_row (kyle_lambda w close volume) /\ one_per_row (amihud_lambda w close volume) /\ one_per_row (hasbrouck_lambda w close volume) /\
  one_per_row (vpin w volume buy sell) /\ one_per_row (ewma_difference fast slow normalised close) /\ one_per_row (buy_sell_imbalance fast slow volume_type).
Proof.
  intros. repeat split; [apply local_max_rows|apply roll_rows|apply impact_rows|apply parkinson_rows|apply corwin_rows|apply beckers_rows|
    apply kyle_rows|apply amihud_rows|apply hasbrouck_rows|apply vpin_rows|apply ewma_rows|apply imbalance_rows].
Qed.
Print Assumptions C40_rows.

(** ** C41: VPIN *)
Theorem C41_vpin : forall w X vn bn sn v b s, 1 <= w -> has_column X vn v -> has_column X bn b -> has_column X sn s ->
  List.length b = List.length v -> List.length s = List.length v -> Forall (fun x => 0 <= x)%R b -> Forall (fun x => 0 <= x)%R s ->
  (forall i, i < List.length v -> row v i = (row b i + row s i)%R) ->
  exists out, vpin w vn bn sn X = Ok out /\ List.length out = List.length v /\ forall i, i < List.length v ->
    let total := rsum (trailing w (row v) i) in let imbalance := rsum (trailing w (fun j => Rabs (row b j - row s j)) i) in
    exists y, nth_error out i = Some y /\
      (i + 1 < w -> y = NaN) /\
      (w <= i + 1 -> total = 0%R -> y = if Nat.eqb i (w - 1) then NaN else Fin 0%R) /\
      (w <= i + 1 -> total <> 0%R -> exists q, y = Fin q /\ q = (imbalance / total)%R /\ (0 <= q <= 1)%R).
Proof. exact c41. Qed.
Print Assumptions C41_vpin.
Example C41_case : has_column bars "volume" [1; 2; 3; 4]%R /\ has_column bars "buy" [1; 0.5; 2; 1]%R /\ has_column bars "sell" [0; 1.5; 1; 3]%R /\
  forall i, i < 4 -> row [1; 2; 3; 4]%R i = (row [1; 0.5; 2; 1]%R i + row [0; 1.5; 1; 3]%R i)%R.
Proof. repeat split; try reflexivity. intros i Hi. do 4 (destruct i as [|i]; [cbn; lra|]). lia. Qed.

(** ** C42: rolling z-score *)

(** For every series, with missing or infinite values too: no value unless the last w values are numbers, not all equal; then
    it is the z-score of the last one, within the bound. *)
Theorem C42_z_score : forall w l i, 2 <= w -> i < List.length l -> exists z, nth_error (calc_z_score w l) i = Some z /\
  match last_values w l i with
  | None => z = NaN
  | Some v => constant v /\ z = NaN \/
              ~ constant v /\ exists s, z = Fin s /\ s = ((last v 0 - average v) / sample_sd v)%R /\ (Rabs s <= (INR w - 1) / sqrt (INR w))%R
  end.
Proof. exact c42. Qed.
Print Assumptions C42_z_score.
Example C42_case : last_values 3 (map Fin [1; 1; 2; 1.5]%R) 3 = Some [1; 2; 1.5]%R /\ ~ constant [1; 2; 1.5]%R /\ constant [2; 2; 2]%R.
Proof.
  split; [reflexivity|]. split.
  - intros [x H]. pose proof (H 1%R ltac:(cbn; auto)). pose proof (H 2%R ltac:(cbn; auto)). lra.
  - exists 2%R. cbn. intuition.
Qed.
(** The bound is attained. *)
Theorem C42_attained : forall w, 2 <= w -> exists l, List.length l = w /\
  nth_error (calc_z_score w l) (w - 1) = Some (Fin ((INR w - 1) / sqrt (INR w))%R).
Proof. exact c42_attained. Qed.
Print Assumptions C42_attained.

(** A window of one value has no standard deviation: nothing but missing values. *)
Theorem C42_window_one : forall l, calc_z_score 1 l = repeat NaN (List.length l).
Proof. exact z_score_window_one. Qed.
Print Assumptions C42_window_one.

(** Shifting or scaling the series changes nothing. *)
Theorem C42_invariant : forall w l a b, 2 <= w -> (0 < a)%R -> calc_z_score w (affine a b l) = calc_z_score w l.
Proof. exact c42_affine. Qed.
Print Assumptions C42_invariant.

(** Unknown types are rejected. *)
Theorem C42_factory : forall key w,
  ~ In key ["bar_arrival_time"; "buy_sell_diff"; "average_buy_size"; "high_to_low_ratio"]%string -> get_transformer key w = Err KeyError.
Proof. exact factory_unknown. Qed.
Print Assumptions C42_factory.

(** ** C43: signs *)

(** Whatever the frame holds (missing, infinite or non-positive prices too), as long as volumes are not negative. *)
Theorem C43_not_negative : forall w close volume high low X out,
  (roll_measure w close X = Ok out -> Forall not_negative out) /\
  (parkinson w high low X = Ok out -> Forall not_negative out) /\
  (beckers_parkinson w high low X = Ok out -> Forall not_negative out) /\
  (hasbrouck_lambda w close volume X = Ok out -> Forall not_negative out) /\
  (volumes_not_negative X volume ->
    (roll_impact w close volume X = Ok out -> Forall not_negative out) /\
    (kyle_lambda w close volume X = Ok out -> Forall not_negative out) /\
    (amihud_lambda w close volume X = Ok out -> Forall not_negative out)).
Proof.
  intros. split; [apply roll_nn|]. split; [apply parkinson_nn|]. split; [apply beckers_nn|]. split; [apply hasbrouck_nn|]. intros Hv.
  split; [now apply impact_nn|]. split; [now apply kyle_nn|now apply amihud_nn].
Qed.
Print Assumptions C43_not_negative.
Example C43_case : volumes_not_negative bars "volume".
Proof. intros c H. cbn in H. injection H as <-. repeat (apply Forall_cons; [right; right; eexists; (split; [reflexivity|lra])|]). constructor. Qed.

Theorem C43_corwin_schultz : forall w high low X out, corwin_schultz w high low X = Ok out ->
  Forall (fun x => x = NaN \/ exists v, x = Fin v /\ (0 <= v < 2)%R) out.
Proof. exact corwin_range. Qed.
Print Assumptions C43_corwin_schultz.

(** ** C60: probabilities of the rule-based predictors *)
Theorem C60_one_hot : forall ta fast slow fill name threshold cfg period w,
  certain_rows [(-1)%R; 0%R; 1%R] (ma_predict fast slow fill name) (ma_predict_proba fast slow fill name) /\
  certain_rows [(-1)%R; 0%R; 1%R] (mean_reversion_predict ta threshold) (mean_reversion_predict_proba ta threshold) /\
  certain_rows [0%R; 1%R] (bar_rsi_predict ta cfg) (bar_rsi_predict_proba ta cfg) /\
  certain_rows [0%R; 1%R] (rsi_confirmation_predict ta threshold period w) (rsi_confirmation_predict_proba ta threshold period w).
Proof. intros. split; [apply c60_ma|]. split; [apply c60_mean|]. split; [apply c60_bar|apply c60_conf]. Qed.
Print Assumptions C60_one_hot.
Example C60_case : certain [(-1)%R; 0%R; 1%R] (Fin 1%R) [0; 0; 1]%R.
Proof. exists 2, 1%R. repeat split. intros j Hj. cbn in Hj. do 3 (destruct j as [|j]; [reflexivity|]). lia. Qed.

(** ** C64: bounded memory *)
Theorem C64_window : forall w close volume high low buy sell, 1 <= w ->
  forgets (w - 1) (local_max_to_close w) /\ forgets (w + 1) (roll_measure w close) /\ forgets (w + 1) (roll_impact w close volume) /\
  forgets (w - 1) (parkinson w high low) /\ forgets w (corwin_schultz w high low) /\ forgets w (beckers_parkinson w high low) /\
  forgets w (kyle_lambda w close volume) /\ forgets w (amihud_lambda w close volume) /\ forgets w (hasbrouck_lambda w close volume) /\
  forgets w (vpin w volume buy sell).
Proof.
  intros w close volume high low buy sell H. repeat split; [now apply local_max_forgets|now apply roll_forgets|now apply impact_forgets|now apply parkinson_forgets|
    now apply corwin_forgets|now apply beckers_forgets|now apply kyle_forgets|now apply amihud_forgets|now apply hasbrouck_forgets|now apply vpin_forgets].
Qed.
Print Assumptions C64_window.

Theorem C64_z_scores : forall key w T, 1 <= w -> get_transformer key w = Ok T -> forgets w T.
Proof. exact factory_forgets. Qed.
Print Assumptions C64_z_scores.

Theorem C64_crossover : forall fast slow name X m, 1 <= fast -> fast <= slow -> well_formed X -> NoDup (f_index X) ->
  match ma_crossover fast slow false name X, ma_crossover fast slow false name (drop m X) with
  | Ok out, Ok out' => skipn slow out' = skipn (m + slow) out
  | Err e, Err e' => e = e'
  | _, _ => False
  end.
Proof. exact crossover_forgets. Qed.
Print Assumptions C64_crossover.

(** ** C65: formulas *)
Theorem C65_lambdas : forall w X cn vn c v, 1 <= w -> has_column X cn c -> has_column X vn v -> List.length v = List.length c ->
  Forall (fun x => 0 < x)%R v ->
  (exists out, kyle_lambda w cn vn X = Ok out /\
     values_from w (List.length c) (fun i => average (trailing w (fun j => Rabs (change c j) / row v j)%R i)) out) /\
  (Forall (fun x => 0 < x)%R c ->
   (exists out, amihud_lambda w cn vn X = Ok out /\
      values_from w (List.length c) (fun i => average (trailing w (fun j => Rabs (log_change c j) / row v j)%R i)) out) /\
   (exists out, hasbrouck_lambda w cn vn X = Ok out /\
      values_from w (List.length c) (fun i => average (trailing w (fun j => Rabs (log_change c j) / sqrt (row v j))%R i)) out)).
Proof.
  intros w X cn vn c v Hw Hc Hv Hl Hp. split; [now apply kyle_formula|]. intros Hcp. split; [now apply amihud_formula|now apply hasbrouck_formula].
Qed.
Print Assumptions C65_lambdas.

Theorem C65_roll : forall w X cn vn c v, 2 <= w -> has_column X cn c -> has_column X vn v -> List.length v = List.length c ->
  Forall (fun x => 0 < x)%R v ->
  let spread := fun i => (2 * sqrt (Rabs (covariance (trailing w (change c) i) (trailing w (fun j => change c (j - 1)) i))))%R in
  (exists out, roll_measure w cn X = Ok out /\ values_from (w + 1) (List.length c) spread out) /\
  (exists out, roll_impact w cn vn X = Ok out /\ values_from (w + 1) (List.length c) (fun i => spread i / row v i)%R out).
Proof. intros w X cn vn c v Hw Hc Hv Hl Hp. split; [apply roll_formula|apply impact_formula]; auto; lia. Qed.
Print Assumptions C65_roll.

Theorem C65_high_low : forall w X hn ln' h l, 1 <= w -> List.length l = List.length h -> Forall (fun x => 0 < x)%R h -> Forall (fun x => 0 < x)%R l ->
  has_column X hn h -> has_column X ln' l ->
  (exists out, parkinson w hn ln' X = Ok out /\
     values_from (w - 1) (List.length h) (fun i => average (trailing w (fun j => 1 / (4 * ln 2) * range2 h l j)%R i)) out) /\
  (exists out, corwin_schultz w hn ln' X = Ok out /\ values_from w (List.length h) (cs_spread w h l) out) /\
  (exists out, beckers_parkinson w hn ln' X = Ok out /\ values_from w (List.length h) (bp_sigma w h l) out).
Proof. intros w X hn ln' h l Hw Hl Hh Hlp Eh El. split; [now apply parkinson_formula|]. split; [now apply corwin_formula|now apply beckers_formula]. Qed.
Print Assumptions C65_high_low.
Example C65_case : has_column bars "close" [1; 1; 2; 1.5]%R /\ has_column bars "volume" [1; 2; 3; 4]%R /\ Forall (fun x => 0 < x)%R [1; 2; 3; 4]%R /\
  Forall (fun x => 0 < x)%R [1; 1; 2; 1.5]%R /\ has_column bars "high" [2; 3; 2; 4]%R /\ has_column bars "low" [1; 1; 1; 1.5]%R.
Proof. repeat split; try reflexivity; repeat (apply Forall_cons; [lra|]); constructor. Qed.

(** ** C66: rule-based signals *)
Theorem C66_mean_reversion : forall ema th X c, lookup "close" X = Some c -> List.length (ema c) = List.length c -> (0 <= th)%R ->
  exists out, mean_reversion_predict ema th X = Ok out /\ List.length out = List.length c /\
  forall i p a, nth_error c i = Some (Fin p) -> nth_error (ema c) i = Some (Fin a) -> (0 < a)%R ->
    ((p < a * (1 - th))%R /\ nth_error out i = Some (Fin 1%R)) \/
    ((a * (1 + th) < p)%R /\ nth_error out i = Some (Fin (-1)%R)) \/
    ((a * (1 - th) <= p <= a * (1 + th))%R /\ nth_error out i = Some (Fin 0%R)).
Proof. exact mean_reversion_rule. Qed.
Print Assumptions C66_mean_reversion.

Theorem C66_rsi_confirmation : forall rsi th period w X c, 1 <= period -> 1 <= w -> lookup "close" X = Some c -> List.length (rsi c) = List.length c ->
  exists out, rsi_confirmation_predict rsi th period w X = Ok out /\
  signals (List.length c) (fun i => period <= i + 1 /\ (forall j, i + 1 - period <= j <= i -> exists x, nth_error (rsi c) j = Some x /\ below x th) /\
    exists k a b, i = S k /\ moving_average w (rsi c) k = Some a /\ moving_average w (rsi c) i = Some b /\ (a < b)%R) out.
Proof. exact rsi_confirmation_rule. Qed.
Print Assumptions C66_rsi_confirmation.

Theorem C66_bar_arrival : forall rsi cfg X c, well_formed X -> 1 <= arr_fast cfg -> 1 <= arr_slow cfg -> max_diff cfg <> 0%Z ->
  lookup "close" X = Some c -> List.length (rsi c) = List.length c ->
  exists out, bar_rsi_predict rsi cfg X = Ok out /\
  signals (List.length (f_index X)) (fun i => arr_fast cfg <= i /\ arr_slow cfg <= i /\
    (exists x, nth_error (rsi c) i = Some x /\ above x (rsi_lower cfg) /\ below x (rsi_upper cfg)) /\
    (arr_lower cfg < (mean_arrival (f_index X) (arr_fast cfg) i - mean_arrival (f_index X) (arr_slow cfg) i) / IZR (max_diff cfg) < arr_upper cfg)%R) out.
Proof. exact bar_rsi_rule. Qed.
Print Assumptions C66_bar_arrival.

(** 1 (-1) when the histogram turns from negative to positive (positive to negative), half of that when it leaves or reaches 0. *)
Theorem C66_macd : forall hist name X c, lookup name X = Some c -> List.length (hist c) = List.length c ->
  exists out, macd_crossover hist name X = Ok out /\ List.length out = List.length c /\
  (forall x0, nth_error out 0 = Some x0 -> x0 = NaN) /\
  (forall i x y s t, nth_error (hist c) i = Some (Fin x) -> nth_error (hist c) (S i) = Some (Fin y) -> sign_of x s -> sign_of y t ->
     nth_error out (S i) = Some (Fin ((t - s) / 2)%R)) /\
  (forall i, S i < List.length c -> nth_error (hist c) i = Some NaN \/ nth_error (hist c) (S i) = Some NaN -> nth_error out (S i) = Some NaN).
Proof. exact macd_rule. Qed.
Print Assumptions C66_macd.
Example C66_case : lookup "close" bars = Some (map Fin [1; 1; 2; 1.5]%R) /\ List.length (rolling 2 agg_mean (map Fin [1; 1; 2; 1.5]%R)) = 4 /\
  sign_of (-3) (-1) /\ sign_of 2 1 /\ sign_of 0 0.
Proof. repeat split; unfold sign_of; lra. Qed.

(** ** C69: formulas of the simple features *)
Theorem C69_local_max : forall w X h c, 1 <= w -> has_column X "high" h -> has_column X "close" c -> List.length c = List.length h -> Forall (fun x => 0 < x)%R c ->
  exists out, local_max_to_close w X = Ok out /\ List.length out = List.length h /\
  forall i, i < List.length h -> (i + 1 < w /\ nth_error out i = Some NaN) \/
    (w <= i + 1 /\ exists m, greatest (trailing w (row h) i) m /\ nth_error out i = Some (Fin (m / row c i)%R)).
Proof. exact local_max_formula. Qed.
Print Assumptions C69_local_max.
Theorem C69_ewma_difference : forall X fast slow name c, (1 <= fast)%R -> (1 <= slow)%R -> has_column X name c ->
  (exists out, ewma_difference fast slow false name X = Ok out /\ values_from 0 (List.length c) (fun i => ewma fast c i - ewma slow c i)%R out) /\
  (Forall (fun x => 0 <= x)%R c -> exists out, ewma_difference fast slow true name X = Ok out /\ values_from 0 (List.length c) (fun i => (ewma fast c i - ewma slow c i) / (ewma fast c i + 1))%R out).
Proof. exact ewma_formula. Qed.
Print Assumptions C69_ewma_difference.
Theorem C69_imbalance : forall X fast slow volume_type b s v, has_column X (volume_type ++ "_asset_buy_volume") b -> has_column X (volume_type ++ "_asset_sell_volume") s -> has_column X (volume_type ++ "_asset_volume") v ->
  List.length s = List.length b -> List.length v = List.length b -> Forall (fun x => 0 <= x)%R v ->
  exists out, buy_sell_imbalance fast slow volume_type X = Ok out /\
    values_from 0 (List.length b) (fun i => ((ewma fast b i - ewma fast s i) - (ewma slow b i - ewma slow s i)) / (row v i + 1))%R out.
Proof. exact imbalance_formula. Qed.
Print Assumptions C69_imbalance.
(** An exponential average is an average: it lies within any bounds of the values. *)
Theorem C69_average : forall span c i a b, (1 <= span)%R -> i < List.length c -> Forall (fun x => a <= x <= b)%R c -> (a <= ewma span c i <= b)%R.
Proof. exact ewma_bounds. Qed.
Print Assumptions C69_average.
Theorem C69_z_scores : forall w X, 2 <= w ->
  (forall T, get_transformer "bar_arrival_time" w = Ok T ->
    exists s out, T X = Ok out /\ z_scores w s out /\ values_from 1 (List.length (f_index X)) (fun i => IZR (nth i (f_index X) 0%Z - nth (i - 1) (f_index X) 0%Z)) s) /\
  (forall T b s, get_transformer "buy_sell_diff" w = Ok T -> has_column X "quote_asset_buy_volume" b -> has_column X "quote_asset_sell_volume" s -> List.length s = List.length b ->
    exists l out, T X = Ok out /\ z_scores w l out /\ values_from 0 (List.length b) (fun i => row b i - row s i)%R l) /\
  (forall T b n, get_transformer "average_buy_size" w = Ok T -> has_column X "quote_asset_buy_volume" b -> has_column X "num_buy_ticks" n -> List.length n = List.length b -> Forall (fun x => 0 < x)%R n ->
    exists l out, T X = Ok out /\ z_scores w l out /\ values_from 0 (List.length b) (fun i => row b i / row n i)%R l) /\
  (forall T h l, get_transformer "high_to_low_ratio" w = Ok T -> has_column X "high" h -> has_column X "low" l -> List.length l = List.length h -> Forall (fun x => 0 < x)%R l ->
    exists s out, T X = Ok out /\ z_scores w s out /\ values_from 0 (List.length h) (fun i => row h i / row l i)%R s).
Proof.
  intros w X Hw. split; [|split; [|split]]; intros T; [now apply arrival_z|intros b s|intros b n|intros h l]; intros H; [now apply (buy_sell_z w T X b s Hw H)|now apply (average_buy_z w T X b n Hw H)|now apply (high_low_z w T X h l Hw H)].
Qed.
Print Assumptions C69_z_scores.
(** The constructors accept the volume types quote and base, and a fast period that is not greater than the slow one. *)
Theorem C69_constructors : (forall vt, bsi_construct vt = Ok vt /\ (vt = "quote" \/ vt = "base")%string \/ bsi_construct vt = Err ValueError /\ vt <> "quote"%string /\ vt <> "base"%string) /\
  (forall fast slow, check_fast_slow fast slow = Ok tt /\ fast <= slow \/ check_fast_slow fast slow = Err ValueError /\ slow < fast).
Proof.
  split; [exact bsi_ok|]. intros fast slow. unfold check_fast_slow. destruct (Nat.ltb_spec slow fast); [right|left]; split; auto.
Qed.
Print Assumptions C69_constructors.
Example C69_case : let X := {| f_index := [0; 10; 30]%Z; f_cols := [("quote_asset_buy_volume", map Fin [1; 2; 4]%R); ("quote_asset_sell_volume", map Fin [0; 3; 1]%R); ("quote_asset_volume", map Fin [1; 5; 5]%R); ("num_buy_ticks", map Fin [1; 1; 3]%R)]%string |} in
  has_column X ("quote" ++ "_asset_buy_volume") [1; 2; 4]%R /\ has_column X ("quote" ++ "_asset_sell_volume") [0; 3; 1]%R /\ has_column X ("quote" ++ "_asset_volume") [1; 5; 5]%R /\ has_column X "num_buy_ticks" [1; 1; 3]%R /\
  greatest (trailing 2 (row [1; 5; 2; 4]%R) 2) 5 /\ ewma 3 [1; 2; 4]%R 2 = (21 / 7)%R.
Proof.
  cbv zeta. do 4 (split; [reflexivity|]). split; [split; [left; reflexivity|]; intros x [<-|[<-|[]]]; cbn; lra|]. unfold ewma, decay. cbn. lra.
Qed.
