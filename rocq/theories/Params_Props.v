(** Constructors, get_params, set_params and clone: C94, C95, C96, C97, C103. *)
From Coq Require Import String Permutation QArith.
From Verif Require Import Prelude Num Params_Model Params_Spec Params_Proofs Params_Proofs2 Params_Proofs3 Params_Proofs4.
Local Open Scope nat_scope.
Local Open Scope string_scope.

(** * C94: an estimator reports the parameters it was built with and can be cloned *)

Theorem C94_reports : forall ind mapping c kw o, In c (keeping ind mapping) -> call kw -> construct c kw = Ok o -> reports o (takes c kw).
Proof. intros ind mapping c kw o I. apply faithful_reports. exact (keeping_faithful ind mapping c I). Qed.
Print Assumptions C94_reports.
(** The clone is of the same class and has copies of the parameters. (For the bagging classifier: if the indicator matrix can be
    computed from spans and bars, it can be computed from their copies.) *)
Theorem C94_clone : forall ind mapping copy c kw o, copying copy ->
  (forall s p e m t, ind s p e = Ok m -> mapping s m = Ok t -> exists m' t', ind (copy s) (copy p) (copy e) = Ok m' /\ mapping (copy s) m' = Ok t') ->
  In c (keeping ind mapping) -> call kw -> construct c kw = Ok o ->
  exists o', clone copy o = Ok o' /\ class_of o' = c /\ reports o' (fun n v => exists w, takes c kw n w /\ v = copy w).
Proof.
  intros ind mapping copy c kw o Hc Hi I K H. apply faithful_clone; try assumption; [exact (keeping_faithful ind mapping c I)|].
  exact (keeping_copies ind mapping copy Hc Hi c I).
Qed.
Print Assumptions C94_clone.
Theorem C94_set_params : forall ind mapping c kw o new, In c (keeping ind mapping) -> call kw -> construct c kw = Ok o -> call new ->
  (forall n, In n (map fst new) -> In n (map fst (parameters c))) ->
  exists o', set_params o new = (o', None) /\ class_of o' = c /\ reports o' (after_setting c kw new) /\
    forall n, ~ In n (map fst new) -> getattr o' n = getattr o n.
Proof.
  intros ind mapping c kw o new I K H Kn N. destruct (settled_set c kw o new (keeping_faithful ind mapping c I) K H Kn N) as (o' & S & C & A & R).
  exists o'. split; [exact S|]. split; [exact C|]. split; [exact R|]. intros n X. unfold getattr. rewrite A. apply assoc_None in X. now rewrite X.
Qed.
Print Assumptions C94_set_params.
Theorem C94_unknown_name : forall ind mapping c kw o n v r, In c (keeping ind mapping) -> construct c kw = Ok o -> ~ In n (map fst (parameters c)) ->
  set_params o ((n, v) :: r) = (o, Some ValueError).
Proof. intros ind mapping c kw o n v r I. apply unknown_name. exact (keeping_faithful ind mapping c I). Qed.
Print Assumptions C94_unknown_name.
(** The other estimators can never be asked for their parameters, changed or cloned, whatever the arguments. *)
Theorem C94_renaming_refuted : forall ta c kw o, In c (renaming ta) -> construct c kw = Ok o ->
  get_params o = Err AttributeError /\ (forall copy, clone copy o = Err AttributeError) /\
  (forall n v r, set_params o ((n, v) :: r) = (o, Some AttributeError)).
Proof. intros ta c kw o I. apply silent_fails. exact (renaming_silent ta c I). Qed.
Print Assumptions C94_renaming_refuted.

(** The classes that are no scikit-learn estimators cannot be cloned either. *)
Theorem C94_not_estimators_refuted : forall ta c kw o, In c [ExponentialWeightedMovingAverageDifference; MeanReversionStrategy ta; BarArrivalRSIStrategy ta; RSIConfirmation ta] ->
  construct c kw = Ok o -> forall copy, clone copy o = Err TypeError.
Proof.
  intros ta c kw o I H copy. apply construct_ok in H. destruct H as (_ & _ & a & _ & ->). unfold clone. cbn [class_of].
  destruct I as [<-|[<-|[<-|[<-|[]]]]]; reflexivity.
Qed.
Print Assumptions C94_not_estimators_refuted.

(** Every class can be built. *)
Definition ex_ind (s p e : value) : result value := Ok (VObj 7).
Definition ex_mapping (s m : value) : result value := Ok (VObj 8).
Definition ex_ta (n : string) (v : value) (s : list (string * value)) : result value := Ok (VObj 9).
Definition ex_arguments (n : string) : value :=
  if String.eqb n "volume_type" then VStr "base" else if String.eqb n "slow" then VInt 50 else if String.eqb n "to_series_func" then VObj 3 else VInt 12.
Definition ex_call (c : cls) : list (string * value) :=
  flat_map (fun p => match snd p with None => [(fst p, ex_arguments (fst p))] | Some _ => [] end) (parameters c).
Example C94_case_built : forallb (fun c => match construct c (ex_call c) with Ok _ => true | Err _ => false end)
  (keeping ex_ind ex_mapping ++ renaming ex_ta)%list = true.
Proof. vm_compute. reflexivity. Qed.
Example C94_case : exists o, construct VPIN [("window", VInt 30)] = Ok o /\
  get_params o = Ok [("base_asset_buy_volume_column_name", VStr "base_asset_buy_volume"); ("base_asset_sell_volume_column_name", VStr "base_asset_sell_volume");
                     ("base_asset_volume_column_name", VStr "base_asset_volume"); ("window", VInt 30)].
Proof. eexists. split; reflexivity. Qed.
Example C94_case_clone : copying (fun v => match v with VObj a => VObj (a + 100) | _ => v end) /\
  exists o o', construct (BaggingClassifier ex_ind ex_mapping) [("samples_info_sets", VObj 1); ("price_bars", VObj 2)] = Ok o /\
    clone (fun v => match v with VObj a => VObj (a + 100) | _ => v end) o = Ok o' /\ getattr o' "samples_info_sets" = Ok (VObj 101) /\ getattr o' "n_estimators" = Ok (VInt 10).
Proof. split; [intros v; destruct v; try reflexivity; eexists; reflexivity|]. do 2 eexists. split; [reflexivity|]. split; [reflexivity|]. split; reflexivity. Qed.
Example C94_case_set : exists o o', construct RollMeasure [] = Ok o /\ set_params o [("window", VInt 5)] = (o', None) /\
  get_params o' = Ok [("close_column_name", VStr "close"); ("window", VInt 5)].
Proof. do 2 eexists. split; [reflexivity|]. split; reflexivity. Qed.

(** * C95: set_params is as good as building the estimator anew *)

(** After set_params, the object is the one that a call with the resulting arguments would have built. *)
Theorem C95_as_new : forall c kw o new o' kw' fresh, In c (plain ++ checking)%list -> call kw -> construct c kw = Ok o -> call new ->
  (forall n, In n (map fst new) -> In n (map fst (parameters c))) -> set_params o new = (o', None) ->
  call kw' -> construct c kw' = Ok fresh -> (forall n v, takes c kw' n v <-> after_setting c kw new n v) -> same_object o' fresh.
Proof. intros c kw o new o' kw' fr I K H Kn N S K' H' T. exact (set_same c kw o new kw' o' fr I K H Kn S K' H' T N). Qed.
Print Assumptions C95_as_new.
(** For the classes without checks there always is such a call. *)
Theorem C95_plain : forall c kw o new, In c plain -> call kw -> construct c kw = Ok o -> call new ->
  (forall n, In n (map fst new) -> In n (map fst (parameters c))) ->
  exists o' kw' fresh, set_params o new = (o', None) /\ call kw' /\ (forall n v, takes c kw' n v <-> after_setting c kw new n v) /\
    construct c kw' = Ok fresh /\ same_object o' fresh.
Proof.
  intros c kw o new I K H Kn N. assert (I' : In c (plain ++ checking)%list) by (apply in_or_app; now left).
  destruct (plain_facts ex_ind ex_mapping c I') as [Ik _].
  destruct (C94_set_params ex_ind ex_mapping c kw o new Ik K H Kn N) as (o' & S & _). destruct (plain_fresh c kw o new I K H Kn N) as (kw' & fr & K' & H' & T).
  exists o', kw', fr. repeat (split; [assumption|]). exact (set_same c kw o new kw' o' fr I' K H Kn S K' H' T N).
Qed.
Print Assumptions C95_plain.
(** The checks of the constructor are not made by set_params. *)
Theorem C95_checks_skipped_refuted :
  (forall kw o s, call kw -> construct BuySellImbalance kw = Ok o -> exists o', set_params o [("volume_type", VStr s)] = (o', None) /\ getattr o' "volume_type" = Ok (VStr s)) /\
  (forall kw o m w, call kw -> construct TrendScannerLabeling kw = Ok o ->
     exists o', set_params o [("min_sample_length", m); ("look_forward_window", w)] = (o', None) /\ getattr o' "min_sample_length" = Ok m /\ getattr o' "look_forward_window" = Ok w).
Proof.
  split.
  - intros kw o s K H. pose proof (keeping_faithful ex_ind ex_mapping BuySellImbalance ltac:(cbn; auto 20)) as F.
    destruct (settled_set _ kw o [("volume_type", VStr s)] F K H) as (o' & S & C & A & _).
    + unfold call. distinct.
    + intros n [<-|[]]. cbn. auto.
    + exists o'. split; [exact S|]. unfold getattr. rewrite A. reflexivity.
  - intros kw o m w K H. pose proof (keeping_faithful ex_ind ex_mapping TrendScannerLabeling ltac:(cbn; auto 20)) as F.
    destruct (settled_set _ kw o [("min_sample_length", m); ("look_forward_window", w)] F K H) as (o' & S & C & A & _).
    + unfold call. distinct.
    + intros n [<-|[<-|[]]]; cbn; auto.
    + exists o'. split; [exact S|]. unfold getattr. rewrite !A. split; reflexivity.
Qed.
Print Assumptions C95_checks_skipped_refuted.
Example C95_case : exists o, construct BuySellImbalance [("fast", VInt 5); ("slow", VInt 20); ("volume_type", VStr "base")] = Ok o /\
  construct BuySellImbalance [("fast", VInt 5); ("slow", VInt 20); ("volume_type", VStr "bid")] = Err ValueError /\
  snd (set_params o [("volume_type", VStr "bid")]) = None.
Proof. eexists. split; [reflexivity|]. split; reflexivity. Qed.

(** * C96: every argument of a constructor reaches the computation it names *)

Theorem C96_arguments : forall ta c l attr p kw o v, In (c, l) (used ta) -> In (attr, p) l -> call kw -> construct c kw = Ok o ->
  takes c kw p v -> getattr o attr = Ok v.
Proof. exact used_read. Qed.
Print Assumptions C96_arguments.
(** The indicator of the library gets the right settings. *)
Theorem C96_indicators : forall ta c attr name col settings kw o, In (c, (attr, name, col, settings)) (indicators ta) -> call kw -> construct c kw = Ok o ->
  exists t v args, getattr o attr = Ok t /\ ta name v args = Ok t /\ is_column c kw col v /\ map fst args = map fst settings /\
    forall s p w, In (s, p) settings -> (takes c kw p w <-> In (s, w) args).
Proof. exact indicators_built. Qed.
Print Assumptions C96_indicators.
Example C96_case : exists o, construct (MACDHistogramCrossOver (fun n v s => match s with [(_, VInt a); (_, VInt b); (_, VInt c)] => Ok (VInt (a * 10000 + b * 100 + c)) | _ => Err TypeError end))
  [("fast_period", VInt 5)] = Ok o /\ getattr o "transformer_" = Ok (VInt 52609).
Proof. eexists. split; reflexivity. Qed.
Example C96_case_bet_sizing : exists o, construct BetSizingFromProbabilities [("num_classes", VInt 2); ("discretise", VBool true); ("step_size", VFloat (Fin (1 # 5)))] = Ok o /\
  getattr o "_step_size" = Ok (VFloat (Fin (1 # 5))) /\ getattr o "_metalabeling" = Ok (VBool false).
Proof. eexists. split; [reflexivity|]. split; reflexivity. Qed.

(** * C97: the constructors reject exactly the settings they cannot work with *)

Theorem C97_binding : forall c kw, call kw -> ~ proper c kw -> construct c kw = Err TypeError.
Proof. exact improper_rejected. Qed.
Print Assumptions C97_binding.
Theorem C97_fast_slow : forall c kw vf vs x y, c = MovingAverageCrossOver \/ c = ExponentialWeightedMovingAverageDifference -> proper c kw ->
  takes c kw "fast" vf -> takes c kw "slow" vs -> is_number vf x -> is_number vs y ->
  ((x <= y)%Q -> accepted (construct c kw)) /\ ((y < x)%Q -> construct c kw = Err ValueError).
Proof. exact fast_slow. Qed.
Print Assumptions C97_fast_slow.
Theorem C97_macd : forall ta kw vf vs x y, proper (MACDHistogramCrossOver ta) kw ->
  takes (MACDHistogramCrossOver ta) kw "fast_period" vf -> takes (MACDHistogramCrossOver ta) kw "slow_period" vs -> is_number vf x -> is_number vs y ->
  ((x <= y)%Q -> (forall n v s, exists t, ta n v s = Ok t) -> accepted (construct (MACDHistogramCrossOver ta) kw)) /\
  ((y < x)%Q -> construct (MACDHistogramCrossOver ta) kw = Err ValueError).
Proof. exact macd_fast_slow. Qed.
Print Assumptions C97_macd.
Theorem C97_trend_scanning : forall kw vm vw x y, proper TrendScannerLabeling kw ->
  takes TrendScannerLabeling kw "min_sample_length" vm -> takes TrendScannerLabeling kw "look_forward_window" vw -> is_number vm x -> is_number vw y ->
  ((x < y)%Q -> accepted (construct TrendScannerLabeling kw)) /\ ((y <= x)%Q -> construct TrendScannerLabeling kw = Err AssertionError).
Proof. exact trend_lengths. Qed.
Print Assumptions C97_trend_scanning.
Theorem C97_volume_type : forall kw v, proper BuySellImbalance kw -> takes BuySellImbalance kw "volume_type" v ->
  (v = VStr "quote" \/ v = VStr "base" -> accepted (construct BuySellImbalance kw)) /\
  (v <> VStr "quote" -> v <> VStr "base" -> construct BuySellImbalance kw = Err ValueError).
Proof. exact volume_types. Qed.
Print Assumptions C97_volume_type.
Theorem C97_side_column : forall kw m s, proper TripleBarrierMethodLabeling kw ->
  takes TripleBarrierMethodLabeling kw "metalabeling" m -> takes TripleBarrierMethodLabeling kw "side_column_name" s ->
  (falsy m \/ ~ falsy s -> accepted (construct TripleBarrierMethodLabeling kw)) /\
  (~ falsy m -> falsy s -> construct TripleBarrierMethodLabeling kw = Err AssertionError).
Proof. exact side_name. Qed.
Print Assumptions C97_side_column.
Theorem C97_step_size : forall kw d, proper BetSizingFromProbabilities kw -> takes BetSizingFromProbabilities kw "discretise" d ->
  (falsy d -> accepted (construct BetSizingFromProbabilities kw)) /\
  (~ falsy d -> (takes BetSizingFromProbabilities kw "step_size" VNone -> construct BetSizingFromProbabilities kw = Err AssertionError) /\
    forall v q, takes BetSizingFromProbabilities kw "step_size" v -> is_number v q ->
      ((0 < q < 1)%Q -> accepted (construct BetSizingFromProbabilities kw)) /\ (~ (0 < q < 1)%Q -> construct BetSizingFromProbabilities kw = Err AssertionError)).
Proof. exact step_sizes. Qed.
Print Assumptions C97_step_size.

(** Arguments that Python cannot compare raise TypeError. *)
Theorem C97_incomparable : forall ta c p q kw v w, In (c, (p, q)) (comparing ta) -> proper c kw -> takes c kw p v -> takes c kw q w ->
  incomparable v w -> construct c kw = Err TypeError.
Proof. exact incomparable_rejected. Qed.
Print Assumptions C97_incomparable.
Theorem C97_step_size_incomparable : forall kw d v, proper BetSizingFromProbabilities kw ->
  takes BetSizingFromProbabilities kw "discretise" d -> ~ falsy d -> takes BetSizingFromProbabilities kw "step_size" v ->
  ~ falsy v -> sort_of v <> Number -> construct BetSizingFromProbabilities kw = Err TypeError.
Proof. exact step_incomparable. Qed.
Print Assumptions C97_step_size_incomparable.
(** The check on the periods lets NaN pass. *)
Theorem C97_nan_accepted : forall ta c kw v w, In (c, ("fast", "slow")) (comparing ta) -> proper c kw -> takes c kw "fast" v -> takes c kw "slow" w ->
  sort_of v = Number -> sort_of w = Number -> v = VFloat NaN \/ w = VFloat NaN -> accepted (construct c kw).
Proof. exact nan_accepted. Qed.
Print Assumptions C97_nan_accepted.

Lemma proper_dec c kw : call kw -> forallb (fun kv => has_name (parameters c) (fst kv)) kw = true ->
  forallb (fun p => match snd p with None => has_name kw (fst p) | Some _ => true end) (parameters c) = true -> proper c kw.
Proof.
  intros K A B. split; [exact K|]. rewrite forallb_forall in A, B. split.
  - intros n I. apply in_map_iff in I. destruct I as ([k v] & <- & I). cbn [fst]. rewrite <- has_name_iff. apply (A _ I).
  - intros n I. rewrite <- has_name_iff. apply (B _ I).
Qed.
Example C97_case : let kw := [("fast", VInt 5); ("slow", VFloat (Fin (9 # 2))); ("column_name", VStr "close")] in
  proper MovingAverageCrossOver kw /\ takes MovingAverageCrossOver kw "fast" (VInt 5) /\ takes MovingAverageCrossOver kw "slow" (VFloat (Fin (9 # 2))) /\
  is_number (VInt 5) 5 /\ is_number (VFloat (Fin (9 # 2))) (9 # 2) /\ construct MovingAverageCrossOver kw = Err ValueError.
Proof.
  cbv zeta. split; [apply proper_dec; [unfold call; distinct|reflexivity|reflexivity]|].
  split; [split; cbn; auto|]. split; [split; cbn; auto|]. repeat split.
Qed.
Example C97_case_step : let kw := [("num_classes", VInt 2); ("discretise", VBool true)] in
  proper BetSizingFromProbabilities kw /\ takes BetSizingFromProbabilities kw "discretise" (VBool true) /\ takes BetSizingFromProbabilities kw "step_size" VNone /\
  construct BetSizingFromProbabilities kw = Err AssertionError.
Proof.
  cbv zeta. split; [apply proper_dec; [unfold call; distinct|reflexivity|reflexivity]|]. split; [split; cbn; auto 20|]. split; [|reflexivity].
  split; [cbn; auto 20|]. right. split; [cbn; intros [H|[H|[]]]; discriminate H|cbn; auto 20].
Qed.

Example C97_case_incomparable : let kw := [("min_sample_length", VNone)] in
  proper TrendScannerLabeling kw /\ takes TrendScannerLabeling kw "min_sample_length" VNone /\ takes TrendScannerLabeling kw "look_forward_window" (VInt 20) /\
  incomparable VNone (VInt 20) /\ ~ incomparable (VBool true) (VInt 20).
Proof.
  cbv zeta. split; [apply proper_dec; [unfold call; distinct|reflexivity|reflexivity]|]. split; [split; cbn; auto|].
  split; [split; [cbn; auto|right; split; [cbn; intros [H|[]]; discriminate H|cbn; auto]]|].
  split; [split; intros [H1 H2]; discriminate|]. intros [H _]. apply H. split; reflexivity.
Qed.

(** * C103: an argument left out has its documented default *)

(** Leaving an optional argument out is the same as giving the documented value, for every class and every call. *)
Theorem C103_left_out : forall ind mapping ta c l kw n v, In (c, l) (documented_defaults ind mapping ta) -> In (n, v) l -> ~ In n (map fst kw) ->
  construct c kw = construct c (kw ++ [(n, v)])%list.
Proof. exact left_out. Qed.
Print Assumptions C103_left_out.
(** The other parameters have to be given. *)
Theorem C103_required : forall ind mapping ta c l kw n, In (c, l) (documented_defaults ind mapping ta) -> In n (map fst (parameters c)) ->
  ~ In n (map fst l) -> ~ In n (map fst kw) -> construct c kw = Err TypeError.
Proof. exact needed. Qed.
Print Assumptions C103_required.
(** The order of the arguments does not matter. *)
Theorem C103_any_order : forall ind mapping ta c l kw kw', In (c, l) (documented_defaults ind mapping ta) -> call kw -> Permutation kw kw' ->
  construct c kw = construct c kw'.
Proof. exact any_order. Qed.
Print Assumptions C103_any_order.
(** Samples are always drawn with replacement, and the strategies without training count as fitted. *)
Theorem C103_fixed : forall ind mapping ta c n v kw o, In (c, n, v) (fixed_attributes ind mapping ta) -> construct c kw = Ok o -> getattr o n = Ok v.
Proof. exact fixed. Qed.
Print Assumptions C103_fixed.
Example C103_case : exists o, construct TripleBarrierMethodLabeling [("profit_taking_factor", VInt 2); ("num_expiration_bars", VInt 30); ("stop_loss_factor", VInt 1)] = Ok o /\
  getattr o "volatility_window" = Ok (VInt 100) /\ getattr o "expiration_label" = Ok (VBool false) /\ getattr o "n_expiration_bars" = Ok (VInt 30) /\
  construct TripleBarrierMethodLabeling [("num_expiration_bars", VInt 30); ("profit_taking_factor", VInt 2); ("volatility_window", VInt 100)] = Err TypeError.
Proof. eexists. split; [reflexivity|]. repeat split; reflexivity. Qed.
Example C103_case_listed : In (TripleBarrierMethodLabeling, [("metalabeling", VBool false); ("close_column_name", VStr "close"); ("side_column_name", VStr "side");
  ("volatility_window", VInt 100); ("volatility_adjusted_horizontal_barriers", VBool true); ("expiration_label", VBool false)])
  (documented_defaults ex_ind ex_mapping (fun _ _ _ => Ok VNone)).
Proof. unfold documented_defaults. cbn [In]. auto 40. Qed.
Example C103_case_fitted : exists o, construct (RSIConfirmation (fun _ _ _ => Ok (VObj 1)))
  [("rsi_timeperiod", VInt 14); ("rsi_threshold", VInt 30); ("rsi_confirmation_period", VInt 3); ("rsi_moving_average_window", VInt 5)] = Ok o.
Proof. eexists. reflexivity. Qed.
