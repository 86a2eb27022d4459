(** C93: rises and falls are treated alike. *)
From Coq Require Import Reals Lra Lia QArith String.
From Verif Require Import PreludeFacts Series DailyVol_Model Label_Model Cusum_Model Mirror_Spec Mirror_Proofs Mirror_Proofs2 Mirror_Proofs3.
From Verif Require Feat_Model Feat_Spec OLS_Model OLS_Spec Break_Model Break_Spec Trend_Model Trend_Spec Trend_Proofs3 Trend_Proofs4 Scale_Spec3 Scale_Proofs5 Scale_Cases.
Local Open Scope nat_scope.

(** Events: the series turned upside down has the same events. *)
Theorem C93_events : forall (b h : Q) X X', (0 <= h)%Q ->
  Forall2 (fun r r' => fst r' = fst r /\ mirrored b (snd r) (snd r')) X X' ->
  cusum_transform h X' = cusum_transform h X.
Proof. exact cusum_mirror. Qed.
Print Assumptions C93_events.
Example C93_events_case :
  let X := [(0%Z, Fin 1%Q); (1%Z, Fin 2%Q); (2%Z, Fin 4%Q); (3%Z, PInf); (4%Z, NaN)] in
  let X' := [(0%Z, Fin 9%Q); (1%Z, Fin 8%Q); (2%Z, Fin 6%Q); (3%Z, NInf); (4%Z, NaN)] in
  Forall2 (fun r r' => fst r' = fst r /\ mirrored 10 (snd r) (snd r')) X X' /\ cusum_transform 2%Q X = Ok [2%Z; 3%Z].
Proof. split; [repeat constructor; cbn; reflexivity|vm_compute; reflexivity]. Qed.

(** Labels: the opposite bets, with profit taking and stop loss exchanged, end at the same times with the opposite
    returns, and where one has label 1 the other has label 0. Without metalabeling the labels do not depend on the bet's side. *)
Theorem C93_labels : forall daily_vol order (cfg : config R) y y',
  close_column cfg <> "side"%string -> column y "side" <> None -> opposite_sides y y' ->
  match transform daily_vol order cfg y, transform daily_vol order (exchanged cfg) y' with
  | Ok rows, Ok rows' => Forall2 (fun r r' =>
      o_end r' = o_end r /\ o_vol r' = o_vol r /\
      (metalabeling cfg = true -> o_return r' = opposite (o_return r)) /\
      (metalabeling cfg = true -> expiration_label cfg = false -> other_label (o_label r) (o_label r')) /\
      (metalabeling cfg = false -> o_return r' = o_return r /\ o_label r' = o_label r)) rows rows'
  | Err e, Err e' => e' = e
  | _, _ => False
  end.
Proof. exact labels_mirror. Qed.
Print Assumptions C93_labels.
Definition c93_cfg : config R :=
  {| n_expiration_bars := 1; profit_taking_factor := 2%R; stop_loss_factor := 1%R; metalabeling := true; close_column := "close"%string;
     side_column := "side"%string; volatility_adjusted := false; expiration_label := false |}.
Definition c93_bars (s : R) : frame R :=
  {| f_index := [1000000; 2000000]%Z; f_cols := [("close"%string, [Fin 5; Fin 6]%R); ("side"%string, [Fin s; Fin s]%R)] |}.
Example C93_labels_case : opposite_sides (c93_bars 1) (c93_bars (-1)) /\ column (c93_bars 1) "side" <> None /\ close_column c93_cfg <> "side"%string /\
  column (c93_bars 1) (close_column c93_cfg) = Some [Fin 5; Fin 6]%R.
Proof.
  split; [|split; [discriminate|split; [discriminate|reflexivity]]].
  repeat split. intros name H. unfold column. cbn [f_cols c93_bars find fst]. destruct (String.eqb "close" name); [reflexivity|].
  destruct (String.eqb_spec "side" name) as [E|]; [exfalso; apply H; now rewrite <- E|reflexivity].
Qed.

(** Trend scanning: prices turned upside down give trends of the same lengths with opposite t-values and labels. *)
Theorem C93_trends : forall inv, OLS_Spec.inv_sound inv -> OLS_Spec.inv_complete 2 inv ->
  forall cfg, Trend_Model.t_step cfg = 1 -> 3 <= Trend_Model.t_min cfg < Trend_Model.t_window cfg ->
  forall b junk events y,
  match snd (Trend_Model.transform inv junk cfg events y), snd (Trend_Model.transform inv junk cfg events (Trend_Spec.affine (-1) b y)) with
  | Ok rows, Ok rows' => Forall2 (Trend_Spec.row_times (-1)) rows rows'
  | Err e, Err e' => e = e'
  | _, _ => False
  end.
Proof.
  intros inv Hs Hc cfg H1 H2 b junk events y. pose proof (Trend_Proofs3.c35 inv Hs Hc cfg H1 H2 (-1)%R b ltac:(lra) junk events y) as H.
  replace (Trend_Spec.sgn (-1)) with (-1)%R in H; [exact H|]. unfold Trend_Spec.sgn. destruct (Rlt_dec (-1) 0); [reflexivity|lra].
Qed.
Print Assumptions C93_trends.

(** Moving averages: prices turned upside down cross in the opposite directions. *)
Theorem C93_crossover : forall fast slow fill name X X', 1 <= fast -> 1 <= slow -> NoDup (Feat_Model.f_index X) ->
  Feat_Spec.well_formed X -> Feat_Spec.well_formed X' -> opposite_column name X X' ->
  Feat_Model.ma_crossover fast slow fill name X' =
    match Feat_Model.ma_crossover fast slow fill name X with Ok side => Ok (map opposite side) | Err e => Err e end.
Proof. exact crossover_mirror. Qed.
Print Assumptions C93_crossover.
Definition c93_frame (u : R) : Feat_Model.frame :=
  {| Feat_Model.f_index := [1; 2]%Z; Feat_Model.f_cols := [("close"%string, [Fin u; NaN]); ("volume"%string, [Fin 7; Fin 8]%R)] |}.
Example C93_crossover_case : NoDup (Feat_Model.f_index (c93_frame 3)) /\ Feat_Spec.well_formed (c93_frame 3) /\ Feat_Spec.well_formed (c93_frame (-3)) /\
  opposite_column "close" (c93_frame 3) (c93_frame (-3)).
Proof.
  assert (W : forall u, Feat_Spec.well_formed (c93_frame u)) by (intros u c [<-|[<-|[]]]; reflexivity).
  repeat split; auto; [repeat constructor; cbn; intuition congruence|].
  intros other N. unfold Feat_Model.lookup. cbn [Feat_Model.f_cols c93_frame find fst]. destruct (String.eqb_spec "close" other) as [E|]; [exfalso; apply N; now rewrite <- E|reflexivity].
Qed.

(** Structural breaks: the one-sided tests change places, the others do not see the difference. The models that take
    logarithms are out: opposite prices have none. *)
Theorem C93_csw : forall b s,
  let upside_down := Trend_Spec.affine (-1) b s in
  Break_Model.csw_run (Break_Spec.side_name Break_Spec.Positive) upside_down = Break_Model.csw_run (Break_Spec.side_name Break_Spec.Negative) s /\
  Break_Model.csw_run (Break_Spec.side_name Break_Spec.Negative) upside_down = Break_Model.csw_run (Break_Spec.side_name Break_Spec.Positive) s /\
  Break_Model.csw_run (Break_Spec.side_name Break_Spec.TwoSided) upside_down = Break_Model.csw_run (Break_Spec.side_name Break_Spec.TwoSided) s.
Proof.
  intros b s upside_down. unfold upside_down. rewrite !Scale_Proofs5.csw_affine by lra. unfold Scale_Spec3.turned. destruct (Rlt_dec (-1) 0); [now repeat split|lra].
Qed.
Print Assumptions C93_csw.
Theorem C93_sadf : forall inv, OLS_Spec.inv_sound inv -> forall model lags m const phi, Break_Spec.valid model lags ->
  Break_Spec.n_cols model lags const < m -> OLS_Spec.inv_complete (Break_Spec.n_cols model lags const) inv -> ~ Scale_Spec3.needs_log model ->
  forall s out,
  Break_Model.sadf_run inv model lags m const phi (Scale_Spec3.multiplied (-1) s) = Ok out <-> Break_Model.sadf_run inv model lags m const phi s = Ok out.
Proof. intros inv Hs model lags m const phi HV Hm Hc HN s out. apply Scale_Proofs5.sadf_units; auto; [lra|contradiction]. Qed.
Print Assumptions C93_sadf.
Example C93_sadf_case : Break_Spec.valid "no_trend" 1 /\ Break_Spec.n_cols "no_trend" 1 false < 3 /\ OLS_Spec.inv_sound Trend_Spec.inv_small /\
  OLS_Spec.inv_complete (Break_Spec.n_cols "no_trend" 1 false) Trend_Spec.inv_small /\ ~ Scale_Spec3.needs_log "no_trend" /\
  exists out, Break_Model.sadf_run Trend_Spec.inv_small "no_trend" 1 3 false 0 Scale_Cases.ex_prices = Ok out.
Proof.
  split; [left; split; [reflexivity|lia]|]. split; [cbn; lia|]. split; [exact Trend_Proofs4.inv_small_sound|]. split; [exact Trend_Proofs4.inv_small_complete_2|].
  split; [intros [H _]; discriminate H|]. exact Scale_Cases.ex_prices_run.
Qed.
Theorem C93_chow : forall inv, OLS_Spec.inv_sound inv -> OLS_Spec.inv_complete 1 inv -> forall m s out, 3 <= List.length s ->
  Break_Model.dfc_run inv m (Scale_Spec3.multiplied (-1) s) = Ok out <-> Break_Model.dfc_run inv m s = Ok out.
Proof. intros inv Hs Hc m s out L. apply Scale_Proofs5.chow_units; auto. lra. Qed.
Print Assumptions C93_chow.
