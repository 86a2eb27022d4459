(** What a strategy needs to produce signals, and what it raises otherwise: C110. *)
From Coq Require Import String QArith.
From Verif Require Import Prelude Num Pipe_Model Pipe_Spec Pipe_Spec3 Pipe_Proofs3 Pipe_Proofs14 Pipe_Proofs15 Pipe_Proofs16 Pipe_Props Pipe_Props2.
Open Scope nat_scope.

(** If the parts of a strategy fit together, it predicts, and gives probabilities. *)
Theorem C110_predicts : forall (A : Type) (HA : Arith A) (p : pipeline A) X P M, timely p X -> features_of p X = Ok (P, M) -> primary_ready p P -> meta_ready p P M -> ~ prediction_missing p P M ->
  is_ok (predict_all p X) = true /\ is_ok (predict_proba_all p X) = true.
Proof. exact @predictions_accept. Qed.
Print Assumptions C110_predicts.
(** If moreover the sizes can be made, it gives sides and sizes. *)
Theorem C110_signal : forall (A : Type) (HA : Arith A) (p : pipeline A) X P M, timely p X -> features_of p X = Ok (P, M) -> primary_ready p P -> meta_ready p P M -> ~ prediction_missing p P M -> sizer_ready p ->
  is_ok (get_side_and_size p X) = true.
Proof. exact @signal_accepts. Qed.
Print Assumptions C110_signal.
(** If moreover the factors are set and the volatility can be computed, a trader makes positions. *)
Theorem C110_position : forall (A : Type) (HA : Arith A) (tr : trader A) h X Xf P M f sl pt,
  Forall proper h -> deref h X = Ok Xf -> Forall (fun kf => NoDup (index (snd kf))) Xf -> timely (strategy tr) Xf ->
  features_of (strategy tr) Xf = Ok (P, M) -> primary_ready (strategy tr) P -> meta_ready (strategy tr) P M -> ~ prediction_missing (strategy tr) P M -> sizer_ready (strategy tr) ->
  lookup Xf (align_on (strategy tr)) = Ok f -> stop_loss_factor tr = Some sl -> profit_taking_factor tr = Some pt -> (exists vol, volatility tr f vol) ->
  is_ok (create_position tr h X) = true.
Proof. exact @position_accepts. Qed.
Print Assumptions C110_position.

(** The metalabeling model needs a prediction of the primary model for a time at which a primary feature is missing: ValueError. *)
Theorem C110_prediction_missing : forall (A : Type) (HA : Arith A) (p : pipeline A) X P M, timely p X -> features_of p X = Ok (P, M) -> primary_ready p P -> meta_ready p P M -> prediction_missing p P M ->
  predict_all p X = Err ValueError /\ predict_proba_all p X = Err ValueError /\ get_side_and_size p X = Err ValueError.
Proof. exact @prediction_missing_refused. Qed.
Print Assumptions C110_prediction_missing.
(** Without bet sizer, the metalabeling model must know the class 1: KeyError. *)
Theorem C110_no_class_one : forall (A : Type) (HA : Arith A) (p : pipeline A) X P M mm, timely p X -> features_of p X = Ok (P, M) -> primary_ready p P -> meta_ready p P M -> ~ prediction_missing p P M ->
  bet_sizer p = None -> metalabeling_model p = Some mm -> (forall c, In c (classes mm) -> eeqb c (Fin a1) = false) -> get_side_and_size p X = Err KeyError.
Proof. exact @signal_no_class. Qed.
Print Assumptions C110_no_class_one.
(** No primary model: AttributeError. An exception of the primary model is passed on. Predictions or probabilities of the wrong shape: ValueError. *)
Theorem C110_primary_model : forall (A : Type) (HA : Arith A) (p : pipeline A) X P M, timely p X -> features_of p X = Ok (P, M) -> good_features P -> (forall mm, metalabeling_model p = Some mm -> fitted mm = true) ->
  (primary_model p = None -> predict_all p X = Err AttributeError /\ predict_proba_all p X = Err AttributeError) /\
  forall m, primary_model p = Some m ->
    (forall e, (forall rs, predict m rs = Err e) -> predict_all p X = Err e) /\
    (forall e, (forall rs, predict_proba m rs = Err e) -> predict_proba_all p X = Err e) /\
    ((forall rs, exists v, predict m rs = Ok v /\ List.length v <> List.length rs) -> predict_all p X = Err ValueError) /\
    ((forall rs, exists q, predict_proba m rs = Ok q /\ (List.length q <> List.length rs \/ exists r, In r q /\ List.length r <> List.length (classes m))) -> predict_proba_all p X = Err ValueError).
Proof. exact @primary_errors. Qed.
Print Assumptions C110_primary_model.
(** No transformers for the primary model: ValueError. *)
Theorem C110_no_features : forall (A : Type) (HA : Arith A) (p : pipeline A) X M, timely p X -> features_of p X = Ok ([], M) -> (forall mm, metalabeling_model p = Some mm -> fitted mm = true) ->
  predict_all p X = Err ValueError /\ predict_proba_all p X = Err ValueError /\ get_side_and_size p X = Err ValueError.
Proof. exact @no_features. Qed.
Print Assumptions C110_no_features.
(** A data set for the primary model can be made exactly if there are features, every labelled time is in every frame of features, some time is usable, and the features at usable times are finite;
    a labelled time that a frame does not have raises KeyError, everything else ValueError. *)
Theorem C110_dataset : forall (A : Type) (HA : Arith A) (p : pipeline A) X y P M, features_of p X = Ok (P, M) -> good_frames P -> NoDup (map fst y) -> labels_ok y = true ->
  (is_ok (create_dataset_primary p X y true) = true <-> P <> [] /\ all_times P y /\ (exists t, usable (map snd P) y t) /\ finite_features P y) /\
  (~ all_times P y -> create_dataset_primary p X y true = Err KeyError) /\
  (all_times P y -> is_ok (create_dataset_primary p X y true) = false -> create_dataset_primary p X y true = Err ValueError).
Proof. exact @dataset_accepts. Qed.
Print Assumptions C110_dataset.
(** Alignment of an empty frame, or to no times: IndexError. Several rows to be combined and no known method: KeyError. *)
Theorem C110_alignment : forall (A : Type) (HA : Arith A) how key al (f : frame A), increasingZ al -> after_1700 al -> after_1700 (index f) -> columns f <> [] ->
  (rows f = [] \/ al = [] -> align_frame how key al f = Err IndexError) /\
  (rows f <> [] -> al <> [] -> (exists i, 2 <= List.length (window f al i)) -> (forall name, lookup how key = Ok name -> ~ In name ["mean"; "min"; "max"]%string) -> align_frame how key al f = Err KeyError).
Proof. exact @align_errors. Qed.
Print Assumptions C110_alignment.

(** * Cases *)

Lemma of_width_answers {V} n (h : list (ext Q) -> V) rs : Forall (fun r => List.length r = n /\ ~ In NaN r) rs -> of_width n h rs = Ok (map h rs).
Proof. intros H. unfold of_width. replace (forallb _ rs) with true; [reflexivity|]. symmetry. apply forallb_forall. intros r Hr. rewrite Forall_forall in H. apply Nat.eqb_eq. now apply H. Qed.
Lemma ex_primary_answers : answers ex_primary 2.
Proof.
  split; [reflexivity|]. intros rs _ Hrs. cbn [predict predict_proba ex_primary]. rewrite !(of_width_answers _ _ _ Hrs). split.
  - eexists. split; [reflexivity|]. split; [apply map_length|]. intros Hn. apply in_map_iff in Hn. destruct Hn as (r & E & _). unfold ex_pred in E. destruct (eltb _ _); discriminate.
  - eexists. split; [reflexivity|]. split; [apply map_length|]. apply Forall_forall. intros x Hx. apply in_map_iff in Hx. destruct Hx as (r & <- & _). unfold ex_prob. destruct (eltb _ _); (split; [reflexivity|]); cbn; intuition discriminate.
Qed.
Definition ex_mm (w : nat) (cls : list (ext Q)) : model Q := {| predict := of_width w (fun _ => q 1); predict_proba := of_width w (fun r => [Fin (1 # 5); Fin (4 # 5)]); classes := cls; n_classes := 2; fitted := true |}.
Lemma ex_mm_answers w a b : answers (ex_mm w [a; b]) w.
Proof.
  split; [reflexivity|]. intros rs _ Hrs. cbn [predict predict_proba ex_mm]. rewrite !(of_width_answers _ _ _ Hrs). split.
  - eexists. split; [reflexivity|]. split; [apply map_length|]. intros Hn. apply in_map_iff in Hn. destruct Hn as (r & E & _). discriminate.
  - eexists. split; [reflexivity|]. split; [apply map_length|]. apply Forall_forall. intros x Hx. apply in_map_iff in Hx. destruct Hx as (r & <- & _). split; [reflexivity|]. cbn. intuition discriminate.
Qed.

(** A strategy with both models; the slow features are missing at time 10. *)
Definition ex_p110 (mm : model Q) (proba sizer : bool) : pipeline Q := {|
  primary_transformers := [("bars", None); ("slow", None)]%string; meta_transformers := [("bars"%string, Some ex_close)];
  align_on := "bars"; align_how := [("slow", "mean")]%string; primary_model := Some ex_primary; metalabeling_model := Some mm;
  use_proba := proba; use_predictions := true; bet_sizer := if sizer then Some ex_sizer else None; closing_positions_model := None |}.
Definition ex_P110 : dict (frame Q) := [("bars", ex_bars); ("slow", {| columns := ["f"%string]; rows := [(10, [NaN]); (20, [Fin (8 # 2)]); (30, [Fin (8 # 2)]); (40, [q 6])]%Z |})]%string.
Definition ex_M110 : dict (frame Q) := [("bars"%string, ex_bars)].
Lemma ex_features110 mm proba sizer : features_of (ex_p110 mm proba sizer) ex_X = Ok (ex_P110, ex_M110). Proof. run. Qed.
Lemma ex_timely110 mm proba sizer : timely (ex_p110 mm proba sizer) ex_X.
Proof.
  exists ex_bars, 10%Z. eexists. split; [reflexivity|]. split; [reflexivity|]. intros key f [[= <- <-]|[[= <- <-]|[]]].
  - exists [10; 20; 30]%Z, 40%Z. split; [reflexivity|lia].
  - exists [12; 15; 35]%Z, 50%Z. split; [reflexivity|lia].
Qed.
Ltac complete_now := unfold complete; repeat (constructor; [eexists; split; [cbn; tauto|cbn; intuition discriminate]|]); constructor.
Lemma ex_good110 d : d = ex_P110 \/ d = ex_M110 -> good_features d.
Proof.
  intros [->| ->]; (split; [discriminate|]); split; repeat constructor; try discriminate; cbn; intuition lia.
Qed.
Lemma ex_primary110 mm proba sizer : primary_ready (ex_p110 mm proba sizer) ex_P110.
Proof. split; [apply ex_good110; auto|]. split; [exists 20%Z; complete_now|]. exists ex_primary. split; [reflexivity|exact ex_primary_answers]. Qed.
Lemma ex_meta110 a b (proba sizer : bool) : let p := ex_p110 (ex_mm (if proba then 4 else 2) [a; b]) proba sizer in meta_ready p ex_P110 ex_M110.
Proof.
  split; [reflexivity|]. split; [apply ex_good110; auto|]. split; [exists 20%Z; split; complete_now|]. destruct proba; apply (ex_mm_answers _ a b).
Qed.
Example C110_hypotheses : forall sizer, let p := ex_p110 (ex_mm 4 [q 0; q 1]) true sizer in
  timely p ex_X /\ features_of p ex_X = Ok (ex_P110, ex_M110) /\ primary_ready p ex_P110 /\ meta_ready p ex_P110 ex_M110 /\ ~ prediction_missing p ex_P110 ex_M110 /\ sizer_ready p.
Proof.
  intros sizer p. split; [apply ex_timely110|]. split; [apply ex_features110|]. split; [apply ex_primary110|]. split; [exact (ex_meta110 (q 0) (q 1) true sizer)|]. split.
  - intros (_ & _ & E & _). discriminate.
  - unfold sizer_ready. destruct sizer; cbn.
    + split; [intros m [= <-]; discriminate|]. intros l. eexists. split; [reflexivity|]. rewrite map_map. reflexivity.
    + intros m [= <-]. exists (q 1). split; [cbn; tauto|run].
Qed.
Example C110_signal_case : get_side_and_size (ex_p110 (ex_mm 4 [q 0; q 1]) true false) ex_X =
  Ok {| columns := ["side"; "size"]%string; rows := [(20, [q 1; Fin (4 # 5)]); (30, [q (-1); Fin (4 # 5)]); (40, [q 1; Fin (4 # 5)])]%Z |}.
Proof. run. Qed.
(** With the predictions, but without the probabilities, time 10 is a problem. *)
Example C110_missing_case : let p := ex_p110 (ex_mm 2 [q 0; q 1]) false false in prediction_missing p ex_P110 ex_M110 /\ get_side_and_size p ex_X = Err ValueError.
Proof.
  intros p. assert (H : prediction_missing p ex_P110 ex_M110).
  { split; [discriminate|]. split; [reflexivity|]. split; [reflexivity|]. exists 10%Z. split; [complete_now|]. intros H. inversion H as [|? ? _ H2]. inversion H2 as [|? ? (r & Hr & Hn) _]. cbn in Hr.
    destruct Hr as [[= <-]|[[=]|[[=]|[[=]|[]]]]]. apply Hn. now left. }
  split; [exact H|]. now apply (C110_prediction_missing Q _ p ex_X ex_P110 ex_M110 (ex_timely110 _ _ _) (ex_features110 _ _ _) (ex_primary110 _ _ _) (ex_meta110 (q 0) (q 1) false false) H).
Qed.
Example C110_no_class_case : get_side_and_size (ex_p110 (ex_mm 4 [q (-1); q 0]) true false) ex_X = Err KeyError.
Proof.
  apply (C110_no_class_one Q _ _ ex_X ex_P110 ex_M110 (ex_mm 4 [q (-1); q 0]) (ex_timely110 _ _ _) (ex_features110 _ _ _) (ex_primary110 _ _ _) (ex_meta110 (q (-1)) (q 0) true false)); try reflexivity.
  - intros (_ & _ & E & _). discriminate.
  - intros c [<-|[<-|[]]]; run.
Qed.
(** Labels at times with and without features. *)
Definition ex_y110 : list (Z * ext Q) := [(10, q 1); (20, q (-1)); (25, NaN); (40, q 1)]%Z.
Example C110_dataset_case : NoDup (map fst ex_y110) /\ labels_ok ex_y110 = true /\
  is_ok (create_dataset_primary (ex_p110 ex_meta true false) ex_X ex_y110 true) = true /\
  create_dataset_primary (ex_p110 ex_meta true false) ex_X ((25%Z, q 1) :: ex_y110) true = Err KeyError /\
  create_dataset_primary (ex_p110 ex_meta true false) ex_X [(10%Z, q 1)] true = Err ValueError.
Proof. split; [repeat constructor; cbn; intuition lia|]. repeat split; run. Qed.
Example C110_alignment_case : align_frame [("slow", "median")]%string "slow" (index ex_bars) ex_slow = Err KeyError /\ align_frame [] "slow" (index ex_bars) ex_slow = Err KeyError /\
  align_frame [("slow", "median")]%string "slow" (index ex_bars) {| columns := ["f"%string]; rows := [] |} = Err IndexError.
Proof. repeat split; run. Qed.
Definition ex_trader110 : trader Q := {| strategy := ex_p110 (ex_mm 4 [q 0; q 1]) true true; num_expiration_bars := q 7; volatility_adjusted := true; stop_loss_factor := Some (q 2); profit_taking_factor := Some (q 3);
  daily_vol := daily_vol (ex_trader None None (Some (q 2))) |}.
Example C110_position_case : is_ok (create_position ex_trader110 ex_heap ex_addr) = true.
Proof.
  destruct (C110_hypotheses true) as (H1 & H2 & H3 & H4 & H5 & H6).
  apply (C110_position Q _ ex_trader110 ex_heap ex_addr ex_X ex_P110 ex_M110 ex_bars (q 2) (q 3)); try assumption; try reflexivity.
  - repeat constructor.
  - repeat constructor; cbn; intuition lia.
  - eexists. do 2 eexists. split; [run|]. split; [run|]. reflexivity.
Qed.
