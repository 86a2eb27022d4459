(** C89: the unit of the prices (cents or euros, say) does not matter. *)
From Coq Require Import Reals Lra Lia QArith String.
From Verif Require Import PreludeFacts Series DailyVol_Model Label_Model Weights_Model Cusum_Model Scale_Spec Scale_Proofs Scale_Proofs2.
From Verif Require Feat_Model Scale_Spec2 Scale_Proofs3.
Local Open Scope nat_scope.

(** The daily volatility, for any estimator of the deviation. *)
Theorem C89_daily_volatility : forall (c : R) std idx close, (0 < c)%R ->
  get_daily_vol std idx (map (in_units c) close) = get_daily_vol std idx close.
Proof. exact daily_vol_units. Qed.
Print Assumptions C89_daily_volatility.

(** Labels, ends of labels, returns and volatilities, in every configuration (also the errors). *)
Theorem C89_labels : forall (c : R) std order (cfg : config R) y y', (0 < c)%R ->
  close_column cfg <> side_column cfg -> close_column cfg <> "side"%string ->
  same_but_prices c (close_column cfg) y y' ->
  transform (get_daily_vol std) order cfg y' = transform (get_daily_vol std) order cfg y.
Proof. exact labels_units. Qed.
Print Assumptions C89_labels.

Theorem C89_return_weights : forall (c : R) X X', (0 < c)%R -> same_but_close c X X' -> returns_transform X' = returns_transform X.
Proof. exact weights_units. Qed.
Print Assumptions C89_return_weights.

(** Events, with the threshold in the same unit; adding a constant to all prices changes nothing either. *)
Theorem C89_events : forall (c b h h' : Q) X X', (0 < c)%Q -> (h' == c * h)%Q ->
  Forall2 (fun r r' => fst r' = fst r /\ rescaled c b (snd r) (snd r')) X X' ->
  cusum_transform h' X' = cusum_transform h X.
Proof. exact cusum_rescaled. Qed.
Print Assumptions C89_events.
Example C89_events_case :
  let X := [(0%Z, Fin 1%Q); (1%Z, Fin 2%Q); (2%Z, Fin 4%Q); (3%Z, NaN)] in
  let X' := [(0%Z, Fin 103%Q); (1%Z, Fin 106%Q); (2%Z, Fin 112%Q); (3%Z, NaN)] in
  Forall2 (fun r r' => fst r' = fst r /\ rescaled 3 100 (snd r) (snd r')) X X' /\ cusum_transform 2%Q X = Ok [2%Z] /\ cusum_transform 6%Q X' = Ok [2%Z].
Proof. repeat split; try (repeat constructor; cbn; reflexivity); vm_compute; reflexivity. Qed.

Definition c89_cfg : config R :=
  {| n_expiration_bars := 1; profit_taking_factor := 1%R; stop_loss_factor := 1%R; metalabeling := false; close_column := "close"%string;
     side_column := ""%string; volatility_adjusted := true; expiration_label := false |}.
Definition c89_bars (u : R) : frame R :=
  {| f_index := [1; 2; 3]%Z; f_cols := [("close"%string, [Fin (u * 5); Fin (u * 6); NaN]%R); ("volume"%string, [Fin 1; Fin 2; Fin 3]%R)] |}.
Example C89_labels_case : same_but_prices 100 (close_column c89_cfg) (c89_bars 1) (c89_bars 100) /\
  column (c89_bars 100) "close" = Some [Fin 500; Fin 600; NaN]%R /\ close_column c89_cfg <> side_column c89_cfg /\ close_column c89_cfg <> "side"%string.
Proof.
  repeat split; try discriminate.
  - cbn. do 2 f_equal; [f_equal; lra|]. f_equal. f_equal. lra.
  - intros name H. unfold column. cbn [f_cols c89_bars find fst]. destruct (String.eqb_spec "close" name) as [E|]; [exfalso; apply H; now rewrite <- E|reflexivity].
  - cbn. do 2 f_equal; [f_equal; lra|]. f_equal. f_equal. lra.
Qed.

(** Features and signals of bars whose columns [prices] are in another unit. *)
Import Scale_Spec2 Scale_Proofs3.

(** Features that are ratios or made of log-returns stay what they are. *)
Theorem C89_pure_features : forall (c : R) prices X X' w, (0 < c)%R -> quoted_in c prices X X' ->
  (In "high" prices -> In "close" prices -> Feat_Model.local_max_to_close w X' = Feat_Model.local_max_to_close w X)%string /\
  (In "high" prices -> In "low" prices -> Feat_Model.high_to_low_ratio X' = Feat_Model.high_to_low_ratio X)%string /\
  (forall high low, In high prices -> In low prices ->
     Feat_Model.parkinson w high low X' = Feat_Model.parkinson w high low X /\
     Feat_Model.corwin_schultz w high low X' = Feat_Model.corwin_schultz w high low X /\
     Feat_Model.beckers_parkinson w high low X' = Feat_Model.beckers_parkinson w high low X) /\
  (forall close volume, In close prices -> ~ In volume prices ->
     Feat_Model.amihud_lambda w close volume X' = Feat_Model.amihud_lambda w close volume X /\
     Feat_Model.hasbrouck_lambda w close volume X' = Feat_Model.hasbrouck_lambda w close volume X).
Proof.
  intros c prices X X' w Hc HX. repeat split; intros.
  - now apply (local_max_units c Hc prices).
  - now apply (high_to_low_units c Hc prices).
  - now apply (parkinson_units c Hc prices).
  - now apply (corwin_schultz_units c Hc prices).
  - now apply (beckers_parkinson_units c Hc prices).
  - now apply (amihud_units c Hc prices).
  - now apply (hasbrouck_units c Hc prices).
Qed.
Print Assumptions C89_pure_features.

(** Features measured in prices change as prices do. *)
Theorem C89_price_features : forall (c : R) prices X X' w out, (0 < c)%R -> quoted_in c prices X X' ->
  (forall close, In close prices -> Feat_Model.roll_measure w close X = Ok out -> Feat_Model.roll_measure w close X' = Ok (map (in_units c) out)) /\
  (forall close volume, In close prices -> ~ In volume prices ->
     (Feat_Model.roll_impact w close volume X = Ok out -> Feat_Model.roll_impact w close volume X' = Ok (map (in_units c) out)) /\
     (Feat_Model.kyle_lambda w close volume X = Ok out -> Feat_Model.kyle_lambda w close volume X' = Ok (map (in_units c) out))) /\
  (forall fast slow name, In name prices ->
     Feat_Model.ewma_difference fast slow false name X = Ok out -> Feat_Model.ewma_difference fast slow false name X' = Ok (map (in_units c) out)).
Proof.
  intros c prices X X' w out Hc HX. repeat split; intros.
  - now apply (roll_units c Hc prices X X' HX).
  - now apply (roll_impact_units c Hc prices X X' HX).
  - now apply (kyle_units c Hc prices X X' HX).
  - now apply (ewma_units c prices X X' HX).
Qed.
Print Assumptions C89_price_features.

(** The sides of the moving-average crossover and of mean reversion, the latter for any average that scales with the prices. *)
Theorem C89_signals : forall (c : R) prices X X', (0 < c)%R -> quoted_in c prices X X' ->
  (forall fast slow fill name, In name prices -> Feat_Model.ma_predict fast slow fill name X' = Feat_Model.ma_predict fast slow fill name X) /\
  (forall ema threshold, In "close"%string prices -> (forall l, ema (map (in_units c) l) = map (in_units c) (ema l)) ->
     Feat_Model.mean_reversion_predict ema threshold X' = Feat_Model.mean_reversion_predict ema threshold X).
Proof.
  intros c prices X X' Hc HX. split; intros.
  - now apply (crossover_units c Hc prices X X' HX).
  - now apply (mean_reversion_units c Hc prices X X' HX).
Qed.
Print Assumptions C89_signals.

Definition c89_frame (u : R) : Feat_Model.frame :=
  {| Feat_Model.f_index := [1; 2]%Z; Feat_Model.f_cols := [("close"%string, [Fin (u * 1); Fin (u * 2)]%R); ("volume"%string, [Fin 7; Fin 8]%R)] |}.
Lemma c89_frame_units : quoted_in 2 ["close"%string] (c89_frame 1) (c89_frame 2).
Proof.
  repeat split.
  - intros name [<-|[]]. cbn. do 2 f_equal; [f_equal; lra|]. f_equal. f_equal. lra.
  - intros name N. unfold Feat_Model.lookup. cbn [Feat_Model.f_cols c89_frame find fst]. destruct (String.eqb_spec "close" name) as [E|]; [exfalso; apply N; now left|reflexivity].
Qed.
Example C89_case : quoted_in 2 ["close"%string] (c89_frame 1) (c89_frame 2) /\ ~ In "volume"%string ["close"%string] /\
  Feat_Model.kyle_lambda 1 "close" "volume" (c89_frame 1) <> Err KeyError.
Proof. split; [exact c89_frame_units|]. split; [intros [E|[]]; discriminate E|]. unfold Feat_Model.kyle_lambda. cbn. discriminate. Qed.

(** The exception: the normalised difference of moving averages depends on the unit, because of the one added to its divisor. *)
Theorem C89_normalised_depends_on_unit : exists X X', quoted_in 2 ["close"%string] X X' /\
  Feat_Model.ewma_difference 1 3 true "close" X' <> Feat_Model.ewma_difference 1 3 true "close" X.
Proof.
  exists (c89_frame 1), (c89_frame 2). split; [exact c89_frame_units|]. unfold Feat_Model.ewma_difference. cbn. unfold Feat_Model.ewm_mean, Feat_Model.ewm_mean_at, ewm_obs, zipw. cbn.
  destruct (Req_EM_T (1 - 2 / (1 + 1)) 0) as [_|Q]; [|exfalso; apply Q; field]. destruct (Req_EM_T (1 - 2 / (3 + 1)) 0) as [Q|_]; [lra|]. cbn.
  intros E. injection E. clear E. intros E _. revert E.
  assert (F2 : forall u : R, (((1 - 2 / (3 + 1)) * 1 * (u * 1) + (1 * (u * 2) + 0)) / ((1 - 2 / (3 + 1)) * 1 + (1 + 0)) = 5 / 3 * u)%R) by (intros u; field).
  rewrite !F2.
  destruct (Req_EM_T (2 * 2 + 1) 0) as [Q|_]; [lra|]. destruct (Req_EM_T (1 * 2 + 1) 0) as [Q|_]; [lra|].
  intros E. injection E as E. lra.
Qed.
Print Assumptions C89_normalised_depends_on_unit.
(** An average that scales with the prices. *)
Example C89_average_case : forall c span l, Feat_Model.ewm_mean span (map (in_units c) l) = map (in_units c) (Feat_Model.ewm_mean span l).
Proof. exact ewm_mean_units. Qed.
