(** C98: each component reads exactly the columns it is configured with. *)
From Coq Require Import Reals String QArith.
From Verif Require Import Prelude PreludeFacts Num Series Feat_Model TAFactory_Model Columns_Spec Columns_Proofs Columns_Proofs2.
From Verif Require Label_Model Label_Spec Label_Props.
Open Scope nat_scope.

(** The bar features: they read fixed columns, and a missing one is a KeyError. *)
Theorem C98_bar_features : forall w,
  reads (local_max_to_close w) [("high", KeyError); ("close", KeyError)]%string /\
  (forall T, get_transformer "bar_arrival_time" w = Ok T -> reads T []) /\
  (forall T, get_transformer "buy_sell_diff" w = Ok T -> reads T [("quote_asset_buy_volume", KeyError); ("quote_asset_sell_volume", KeyError)]%string) /\
  (forall T, get_transformer "average_buy_size" w = Ok T -> reads T [("quote_asset_buy_volume", KeyError); ("num_buy_ticks", KeyError)]%string) /\
  (forall T, get_transformer "high_to_low_ratio" w = Ok T -> reads T [("high", KeyError); ("low", KeyError)]%string).
Proof. exact bar_features_read. Qed.
Print Assumptions C98_bar_features.

(** The microstructural features: they read the columns named in the constructor, and a missing one is an AssertionError, except for
    the volume of Roll's impact, which is a KeyError. *)
Theorem C98_microstructure : forall w close volume high low buy sell,
  reads (roll_measure w close) [(close, AssertionError)] /\
  reads (roll_impact w close volume) [(close, AssertionError); (volume, KeyError)] /\
  reads (parkinson w high low) [(high, AssertionError); (low, AssertionError)] /\
  reads (corwin_schultz w high low) [(high, AssertionError); (low, AssertionError)] /\
  reads (beckers_parkinson w high low) [(high, AssertionError); (low, AssertionError)] /\
  reads (kyle_lambda w close volume) [(close, AssertionError); (volume, AssertionError)] /\
  reads (amihud_lambda w close volume) [(close, AssertionError); (volume, AssertionError)] /\
  reads (hasbrouck_lambda w close volume) [(close, AssertionError); (volume, AssertionError)] /\
  reads (vpin w volume buy sell) [(volume, AssertionError); (buy, AssertionError); (sell, AssertionError)].
Proof.
  exact (fun w close volume high low buy sell => conj (roll_reads w close) (conj (impact_reads w close volume) (conj (parkinson_reads w high low) (conj (corwin_reads w high low)
    (conj (beckers_reads w high low) (conj (kyle_reads w close volume) (conj (amihud_reads w close volume) (conj (hasbrouck_reads w close volume) (vpin_reads w volume buy sell))))))))).
Qed.
Print Assumptions C98_microstructure.

(** The technical rules and features, for any TA-Lib function. *)
Theorem C98_technical : forall fast slow fill normalised name (span span' : R) ty (ta : list (ext R) -> list (ext R)) t c p w,
  reads (ma_crossover fast slow fill name) [(name, KeyError)] /\
  reads (ewma_difference span span' normalised name) [(name, KeyError)] /\
  reads (buy_sell_imbalance span span' ty) [(ty ++ "_asset_buy_volume", KeyError); (ty ++ "_asset_sell_volume", KeyError); (ty ++ "_asset_volume", KeyError)]%string /\
  reads (macd_crossover ta name) [(name, ValueError)] /\
  reads (mean_reversion_predict ta t) [("close"%string, ValueError)] /\
  reads (bar_rsi_predict ta c) [("close"%string, ValueError)] /\
  reads (rsi_confirmation_predict ta t p w) [("close"%string, ValueError)].
Proof.
  exact (fun fast slow fill normalised name span span' ty ta t c p w => conj (ma_crossover_reads fast slow fill name) (conj (ewma_difference_reads span span' normalised name)
    (conj (buy_sell_imbalance_reads span span' ty) (conj (macd_reads ta name) (conj (mean_reversion_reads ta t) (conj (bar_rsi_reads ta c) (rsi_confirmation_reads ta t p w))))))).
Qed.
Print Assumptions C98_technical.

(** Their probabilities. *)
Theorem C98_probabilities : forall fast slow fill name (ta : list (ext R) -> list (ext R)) t c p w,
  reads (ma_predict_proba fast slow fill name) [(name, KeyError)] /\
  reads (mean_reversion_predict_proba ta t) [("close"%string, ValueError)] /\
  reads (bar_rsi_predict_proba ta c) [("close"%string, ValueError)] /\
  reads (rsi_confirmation_predict_proba ta t p w) [("close"%string, ValueError)].
Proof.
  exact (fun fast slow fill name ta t c p w => conj (reads_map _ _ _ (ma_crossover_reads fast slow fill name)) (conj (reads_map _ _ _ (mean_reversion_reads ta t))
    (conj (reads_map _ _ _ (bar_rsi_reads ta c)) (reads_map _ _ _ (rsi_confirmation_reads ta t p w))))).
Qed.
Print Assumptions C98_probabilities.

(** A transformer made by the factory for any TA-Lib function: its input columns and keyword arguments are passed on and nothing else. *)
Theorem C98_factory : forall V d name col m kw T, create_transformer V d name col m kw = Ok T -> exists f args kw',
  get_ta_func V d name = Ok f /\
  (forall X n, In n args -> ~ has X n -> T X = Err ValueError) /\
  (forall X, (forall n, In n args -> has X n) -> exists columns, Forall2 (fun n c => lookup n X = Some c) args columns /\ T X = do out <- ta_run V f columns kw' ;; Ok (rows_of out)) /\
  (forall X X', agree_on args X X' -> T X = T X').
Proof. exact factory_reads. Qed.
Print Assumptions C98_factory.

(** Not vacuous: a frame with the columns and one without. *)
Example C98_frames :
  let X := {| f_index := [1; 2; 3]%Z; f_cols := [("close"%string, [Fin 1; NaN; Fin 3]%R); ("volume"%string, [Fin 2; PInf; Fin 1]%R)] |} in
  let X' := {| f_index := [1; 2; 3]%Z; f_cols := [("volume"%string, [Fin 2; PInf; Fin 1]%R); ("noise"%string, [Fin 7; Fin 8; NaN]%R); ("close"%string, [Fin 1; NaN; Fin 3]%R)] |} in
  has X "close" /\ has X "volume" /\ ~ has X "low" /\ agree_on ["close"; "volume"]%string X X' /\ f_cols X <> f_cols X' /\
  kyle_lambda 2 "close" "volume" X = kyle_lambda 2 "close" "volume" X' /\ kyle_lambda 2 "close" "low" X = Err AssertionError /\ roll_impact 2 "close" "low" X = Err KeyError.
Proof.
  intros X X'. assert (Ha : agree_on ["close"; "volume"]%string X X') by (split; [reflexivity|]; intros n [<-|[<-|[]]]; reflexivity).
  split; [now left|]. split; [right; now left|]. split; [intros [H|[H|[]]]; discriminate|]. split; [exact Ha|]. split; [discriminate|].
  split; [apply (kyle_reads 2 "close" "volume"); exact Ha|]. split; reflexivity.
Qed.

(** ** The triple-barrier labelling *)

Import Label_Model Label_Spec.

(** Nothing matters but the times, the closing prices and the column called "side" (by C30 the configured name must be that one). *)
Theorem C98_labels_partial : forall A (HA : Arith A) daily_vol order (cfg : config A) y y' out,
  f_index y = f_index y' -> column y (close_column cfg) = column y' (close_column cfg) -> column y "side" = column y' "side" ->
  transform daily_vol order cfg y = Ok out -> transform daily_vol order cfg y' = Ok out.
Proof. exact @labels_ok. Qed.
Print Assumptions C98_labels_partial.

(** Without metalabeling the side is not asked for, but a column of that name is used all the same: an event changes its label
    because of a column that should be irrelevant. *)
Definition stray : frame Q :=
  {| f_index := Label_Props.case_idx; f_cols := [("close"%string, Label_Props.fq [100; 101; 94; 110; 90; 80]%Q); ("side"%string, Label_Props.fq [-1; -1; -1; -1; -1; -1]%Q)] |}.
Definition uneven : config Q :=
  {| n_expiration_bars := 3; profit_taking_factor := 1 # 20; stop_loss_factor := 1 # 2; metalabeling := false;
     close_column := "close"; side_column := "side"; volatility_adjusted := false; expiration_label := false |}.
Theorem C98_labels_refuted : exists (cfg : config Q) y y' out out',
  construct cfg = Ok cfg /\ metalabeling cfg = false /\ valid_times (f_index y) /\ f_index y = f_index y' /\
  column y (close_column cfg) = column y' (close_column cfg) /\ column y "side" = None /\
  transform Label_Props.no_vol [0; 1; 2; 3; 4; 5] cfg y = Ok out /\ transform Label_Props.no_vol [0; 1; 2; 3; 4; 5] cfg y' = Ok out' /\
  map o_label out <> map o_label out'.
Proof.
  pose (r := transform Label_Props.no_vol [0; 1; 2; 3; 4; 5] uneven Label_Props.case_frame).
  pose (r' := transform Label_Props.no_vol [0; 1; 2; 3; 4; 5] uneven stray).
  assert (H : match r, r' with Ok o, Ok o' => map o_label o <> map o_label o' | _, _ => False end) by (vm_compute; discriminate).
  destruct r as [out|] eqn:E; [|easy]. destruct r' as [out'|] eqn:E'; [|easy].
  exists uneven, Label_Props.case_frame, stray, out, out'. split; [reflexivity|]. split; [reflexivity|]. split; [apply Label_Props.C27_case_valid|].
  split; [reflexivity|]. split; [reflexivity|]. split; [reflexivity|]. split; [exact E|]. split; [exact E'|]. exact H.
Qed.
Print Assumptions C98_labels_refuted.
