(** C101: stricter settings never give more, nor earlier. *)
From Coq Require Import QArith Reals Lra Lia ZArith String Permutation.
From Verif Require Import PreludeFacts Series Cusum_Model Weights_Model Weights_Props DailyVol_Model Label_Model Label_Spec Label_Proofs Label_Proofs2 Label_Proofs3
  Feat_Model Feat_Spec Feat_Props Direction_Props Stricter_Spec Stricter_Proofs Stricter_Proofs2 Stricter_Proofs3 Stricter_Proofs4.
Local Open Scope nat_scope.

(** A higher threshold of the CUSUM filter: at most as many events, and the k-th one no earlier. *)
Theorem C101_cusum : forall h h' X out out', (0 <= h)%Q -> (h <= h')%Q -> increasingZ (map fst X) ->
  cusum_transform h X = Ok out -> cusum_transform h' X = Ok out' -> no_earlier out out'.
Proof. exact c101_cusum. Qed.
Print Assumptions C101_cusum.
Example C101_cusum_case : let X := map (fun r => (fst r, Fin (snd r))) [(1%Z, 10); (2%Z, 11); (3%Z, 12); (4%Z, 11); (5%Z, 10); (6%Z, 12); (7%Z, 13)]%Q in
  increasingZ (map fst X) /\ cusum_transform (3 # 2) X = Ok [3; 5; 6]%Z /\ cusum_transform (5 # 2) X = Ok [7]%Z.
Proof. split; [cbn; repeat constructor|]. split; vm_compute; reflexivity. Qed.
(** The events themselves need not be events of the lower threshold: the accumulators restart at other rows. *)
Example C101_cusum_other_events : let X := map (fun r => (fst r, Fin (snd r))) [(1%Z, 10); (2%Z, 12); (3%Z, 13); (4%Z, 14)]%Q in
  cusum_transform (3 # 2) X = Ok [2; 4]%Z /\ cusum_transform (5 # 2) X = Ok [3]%Z.
Proof. split; vm_compute; reflexivity. Qed.

(** A lower minimum weight never raises a weight, and lowers every positive weight but the newest one. *)
Theorem C101_decay : forall c c' samples out out', (-1 < c)%Q -> (c <= c')%Q -> (forall s e, In (s, e) samples -> (s <= e)%Z) ->
  decay_transform c (map (fun s => (fst s, Some (snd s))) samples) = Ok out ->
  decay_transform c' (map (fun s => (fst s, Some (snd s))) samples) = Ok out' ->
  map fst out = map fst out' /\
  forall t w w', In (t, w) out -> In (t, w') out' -> exists q q', w = Fin q /\ w' = Fin q' /\ (q <= q')%Q /\
    ((c < c')%Q -> (0 < q')%Q -> (exists t2 w2, In (t2, w2) out /\ (t < t2)%Z) -> (q < q')%Q).
Proof. exact c101_decay. Qed.
Print Assumptions C101_decay.
Example C101_decay_case : ex_samples = map (fun s => (fst s, Some (snd s))) [(50, 50); (10, 30); (20, 40)]%Z /\
  show (decay_transform (- (1 # 2)) ex_samples) = [(10%Z, Fin 0); (20%Z, Fin (1 # 7)); (50%Z, Fin 1)]%Q /\
  show (decay_transform (1 # 2) ex_samples) = [(10%Z, Fin (9 # 14)); (20%Z, Fin (11 # 14)); (50%Z, Fin 1)]%Q.
Proof. split; [reflexivity|]. split; vm_compute; reflexivity. Qed.

(** Wider barriers and a longer horizon never make a sample end earlier: whenever the wider settings give an end, the
    narrower ones give an end that is no later. *)
Theorem C101_labels : forall span order (cfg cfg' : config R) y out out' i o o' t',
  valid_times (Label_Model.f_index y) -> Label_Spec.well_formed y -> Permutation order (seq 0 (List.length (Label_Model.f_index y))) ->
  close_column cfg' = close_column cfg -> volatility_adjusted cfg' = volatility_adjusted cfg ->
  (0 <= n_expiration_bars cfg <= n_expiration_bars cfg')%Z -> wider (profit_taking_factor cfg) (profit_taking_factor cfg') ->
  wider (stop_loss_factor cfg) (stop_loss_factor cfg') ->
  transform (get_daily_vol (ewm_std span)) order cfg y = Ok out -> transform (get_daily_vol (ewm_std span)) order cfg' y = Ok out' ->
  nth_error out i = Some o -> nth_error out' i = Some o' -> o_end o' = Some t' ->
  exists t, o_end o = Some t /\ (t <= t')%Z.
Proof. exact c101_labels. Qed.
Print Assumptions C101_labels.
Definition c101_wider : config R :=
  {| n_expiration_bars := 1; profit_taking_factor := 3%R; stop_loss_factor := 0%R; metalabeling := false; close_column := "close"%string;
     side_column := "side"%string; volatility_adjusted := false; expiration_label := false |}.
Example C101_labels_case : wider (profit_taking_factor c100_labels) (profit_taking_factor c101_wider) /\
  wider (stop_loss_factor c100_labels) (stop_loss_factor c101_wider) /\
  exists out out', transform (get_daily_vol (ewm_std 2)) [0; 1] c100_labels c100_bars = Ok out /\
    transform (get_daily_vol (ewm_std 2)) [0; 1] c101_wider c100_bars = Ok out'.
Proof.
  split; [cbn; unfold wider; lra|]. split; [cbn; unfold wider; lra|]. destruct C100_labels_case as (_ & out & o & E & _). exists out. 
  assert (V : valid_times (Label_Model.f_index c100_bars)).
  { split; [cbn; repeat constructor|]. intros t [<-|[<-|[]]]; split; try lia; reflexivity. }
  assert (W : Label_Spec.well_formed c100_bars). { intros n col H. unfold Label_Model.column in H. cbn [Label_Model.f_cols c100_bars find fst] in H. destruct (String.eqb "close" n); [injection H as <-; reflexivity|discriminate]. }
  assert (P : Permutation [0; 1] (seq 0 (List.length (Label_Model.f_index c100_bars)))) by apply Permutation_refl.
  destruct (transform_succeeds (get_daily_vol (ewm_std 2)) [0; 1] c101_wider c100_bars [Fin 5; Fin 6]%R V W P ltac:(discriminate) eq_refl eq_refl ltac:(discriminate)) as (out' & E' & _).
  { cbn. destruct (Rlt_dec 3 0); [lra|reflexivity]. } { discriminate. } { discriminate. }
  exists out'. split; [exact E|exact E'].
Qed.

(** A higher threshold of mean reversion only silences signals. *)
Theorem C101_mean_reversion : forall ema th th' X out out', (0 <= th <= th')%R -> mean_reversion_predict ema th X = Ok out ->
  mean_reversion_predict ema th' X = Ok out' -> fewer_signals out out'.
Proof. exact c101_mean_reversion. Qed.
Print Assumptions C101_mean_reversion.

(** RSI confirmation: a lower threshold and a longer confirmation period only silence signals. *)
Theorem C101_rsi_confirmation : forall rsi th th' period period' w X c out out', (th' <= th)%R -> 1 <= period <= period' -> 1 <= w ->
  lookup "close" X = Some c -> List.length (rsi c) = List.length c ->
  rsi_confirmation_predict rsi th period w X = Ok out -> rsi_confirmation_predict rsi th' period' w X = Ok out' -> fewer_signals out out'.
Proof. exact c101_rsi_confirmation. Qed.
Print Assumptions C101_rsi_confirmation.

(** Bar arrival and RSI: narrower bands only silence signals. *)
Theorem C101_bar_arrival : forall rsi a b X c out out', narrower a b -> well_formed X -> 1 <= arr_fast a -> 1 <= arr_slow a -> max_diff a <> 0%Z ->
  lookup "close" X = Some c -> List.length (rsi c) = List.length c ->
  bar_rsi_predict rsi a X = Ok out -> bar_rsi_predict rsi b X = Ok out' -> fewer_signals out out'.
Proof. exact c101_bar_arrival. Qed.
Print Assumptions C101_bar_arrival.
Example C101_rules_case : let c := map Fin [1; 1; 2; 1.5]%R in let rsi := rolling 2 agg_mean in
  let a := {| rsi_upper := 70; rsi_lower := 30; arr_upper := 2; arr_lower := -2; arr_fast := 1; arr_slow := 2; max_diff := 10 |} in
  let b := {| rsi_upper := 60; rsi_lower := 30; arr_upper := 1; arr_lower := -1; arr_fast := 1; arr_slow := 2; max_diff := 10 |} in
  lookup "close" bars = Some c /\ List.length (rsi c) = List.length c /\ narrower a b /\ well_formed bars /\
  (exists out out', mean_reversion_predict rsi 0 bars = Ok out /\ mean_reversion_predict rsi (1 / 2) bars = Ok out') /\
  (exists out out', rsi_confirmation_predict rsi 60 1 2 bars = Ok out /\ rsi_confirmation_predict rsi 30 2 2 bars = Ok out') /\
  (exists out out', bar_rsi_predict rsi a bars = Ok out /\ bar_rsi_predict rsi b bars = Ok out').
Proof.
  cbv zeta. split; [reflexivity|]. split; [reflexivity|]. split; [unfold narrower; cbn; repeat split; lra|]. split; [exact (proj1 bars_ok)|].
  repeat split; do 2 eexists; split; reflexivity.
Qed.
