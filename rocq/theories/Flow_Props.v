(** C77-C80: what happens to labels downstream. [labelled] (Flow_Spec) describes the labels a user can have: complete rows
    of the triple-barrier labelling or of the trend scanner, or some of them. [times_of] and [ends_of] are the two series
    given to the cross-validator. *)
From Coq Require Import QArith Reals Permutation String.
From Verif Require Import PreludeFacts Series CV_Spec CV_Model Boot_Spec Boot_Model Label_Model Label_Spec Weights_Model OLS_Spec
  Trend_Model Trend_Spec Cusum_Spec Cusum_Model Num Bag_Model Bag_Spec Flow_Model Flow_Spec Flow_Proofs Label_Props Bag_Props.
Local Open Scope nat_scope.

(** ** C77: labels and purged cross-validation *)

(** The labels are exactly the complete rows, in time order and never ending before they start. *)
Theorem C77_complete_rows : forall (A : Type) (idx : list Z) (out : list (out_row A)) s e,
  In (s, e) (label_spans idx out) <->
  exists i o, nth_error idx i = Some s /\ nth_error out i = Some o /\ complete_row o e.
Proof. exact @label_spans_exact. Qed.
Print Assumptions C77_complete_rows.
Theorem C77_labels_proper : forall l, labelled l ->
  increasingZ (map fst l) /\ forall s e, In (s, e) l -> (s <= e)%Z.
Proof. exact labelled_proper. Qed.
Print Assumptions C77_labels_proper.

(** The cross-validator splits them without error. *)
Theorem C77_split_succeeds : forall l groups tests emb c, labelled l ->
  make_cv groups tests (Some (times_of l)) (Some (ends_of l)) emb = Ok c -> (groups <= Z.of_nat (length l))%Z ->
  exists ss, split c (length l) = Ok ss.
Proof. exact c77_split. Qed.
Print Assumptions C77_split_succeeds.

(** A training label and a later test label never overlap. If some label starts after the embargo of all test labels, then no
    training label overlaps a test label at all, and training labels after a test label start after its embargo. *)
Theorem C77_no_overlap_partial : forall l groups tests emb c ss train test, labelled l ->
  make_cv groups tests (Some (times_of l)) (Some (ends_of l)) emb = Ok c -> (groups <= Z.of_nat (length l))%Z ->
  split c (length l) = Ok ss -> In (train, test) ss ->
  (forall t s a b, In t train -> In s test -> nth_error l t = Some a -> nth_error l s = Some b -> t < s -> disjoint a b) /\
  ((exists a, In a l /\ forall s b, In s test -> nth_error l s = Some b -> (snd b + emb < fst a)%Z) ->
   forall t s a b, In t train -> In s test -> nth_error l t = Some a -> nth_error l s = Some b ->
     disjoint a b /\ (s < t -> (snd b + emb < fst a)%Z)).
Proof. exact c77_disjoint. Qed.
Print Assumptions C77_no_overlap_partial.

(** Without the condition it fails: if the last label is tested and every tested block ends at or after position |test|, then
    the embargo has no effect whatsoever, however long it is. *)
Theorem C77_embargo_without_effect_refuted : forall l groups tests emb emb' c c' ss ss' j train test train' test', labelled l ->
  make_cv groups tests (Some (times_of l)) (Some (ends_of l)) emb = Ok c ->
  make_cv groups tests (Some (times_of l)) (Some (ends_of l)) emb' = Ok c' -> (groups <= Z.of_nat (length l))%Z ->
  split c (length l) = Ok ss -> split c' (length l) = Ok ss' ->
  nth_error ss j = Some (train, test) -> nth_error ss' j = Some (train', test') ->
  In (length l - 1) test -> (forall s e, maximal_block test s e -> length test <= e) ->
  test' = test /\ forall i, In i train <-> In i train'.
Proof. exact c77_embargo_lost. Qed.
Print Assumptions C77_embargo_without_effect_refuted.

(** A run of the labelling without horizontal barriers: each label ends two bars later. *)
Definition flow_idx : list Z := map (fun k => (1000000 * Z.of_nat k)%Z) (seq 1 14).
Definition flow_frame : frame Q :=
  {| f_index := flow_idx; f_cols := [("close"%string, map (fun k => Fin (inject_Z (Z.of_nat (k * k + 1)))) (seq 1 14))] |}.
Definition flow_cfg : config Q :=
  {| n_expiration_bars := 2; profit_taking_factor := 0%Q; stop_loss_factor := 0%Q; metalabeling := false; close_column := "close"%string;
     side_column := "side"%string; volatility_adjusted := false; expiration_label := false |}.
Definition flow_out : list (out_row Q) :=
  match Label_Model.transform no_vol (seq 0 14) flow_cfg flow_frame with Ok o => o | Err _ => [] end.
Definition flow_labels : list (Z * Z) := map (fun k => (1000000 * Z.of_nat k, 1000000 * Z.of_nat (k + 2))%Z) (seq 1 12).
Example C77_case : labelled flow_labels.
Proof.
  replace flow_labels with (label_spans (f_index flow_frame) flow_out) by (vm_compute; reflexivity).
  apply (by_barriers Q _ no_vol (seq 0 14) flow_cfg flow_frame).
  - split; [unfold increasingZ; cbn; repeat constructor; lia|].
    intros t Ht. cbn in Ht. repeat destruct Ht as [<-|Ht]; try contradiction; split; reflexivity.
  - intros name col Hc. unfold column in Hc. destruct (find _ (f_cols flow_frame)) as [c|] eqn:E; [|discriminate].
    injection Hc as <-. apply find_some in E. destruct E as [[<-|[]] _]. reflexivity.
  - apply Permutation_refl.
  - discriminate.
  - vm_compute. reflexivity.
Qed.
(** Groups of three labels, the second and the last group tested, embargo of a million bars: the label of sample 6, which is in
    the training set, overlaps the label of test sample 5. *)
Definition flow_cv (emb : Z) : result cv := make_cv 4 2 (Some (times_of flow_labels)) (Some (ends_of flow_labels)) emb.
Example C77_case_overlap : exists c ss, flow_cv 1000000000000 = Ok c /\ split c 12 = Ok ss /\
  nth_error ss 1 = Some ([0; 6], [3; 4; 5; 9; 10; 11]) /\
  nth_error flow_labels 6 = Some (7000000, 9000000)%Z /\ nth_error flow_labels 5 = Some (6000000, 8000000)%Z.
Proof. eexists _, _. split; [vm_compute; reflexivity|]. split; [vm_compute; reflexivity|]. vm_compute. auto. Qed.
(** The condition of the theorem is met when the first two groups are tested. *)
Example C77_case_condition : exists c ss, flow_cv 0 = Ok c /\ split c 12 = Ok ss /\
  nth_error ss 5 = Some ([8; 9; 10; 11], [0; 1; 2; 3; 4; 5]) /\
  exists a, In a flow_labels /\ forall s b, In s [0; 1; 2; 3; 4; 5] -> nth_error flow_labels s = Some b -> (snd b + 0 < fst a)%Z.
Proof.
  eexists _, _. split; [vm_compute; reflexivity|]. split; [vm_compute; reflexivity|]. split; [vm_compute; reflexivity|].
  exists (12000000, 14000000)%Z. split; [vm_compute; tauto|]. intros s b Hs Hb.
  repeat (destruct Hs as [<-|Hs]; [vm_compute in Hb; injection Hb as <-; vm_compute; reflexivity|]). easy.
Qed.

(** ** C78: labels, indicator matrix and sample weights *)

(** Two or more labels are accepted everywhere, with any price bars: by the indicator matrix, by the average uniqueness (one value
    per label, in the same order, above 0 and at most 1), by the time-decay weights and by the return weights. *)
Theorem C78_matrix : forall l bars, labelled l -> 2 <= length l -> exists m idx, get_ind_matrix (complete l) bars = Ok (m, idx).
Proof. exact c78_matrix. Qed.
Print Assumptions C78_matrix.
Theorem C78_uniqueness : forall l, labelled l -> 2 <= length l ->
  exists out, average_uniqueness_transform (map (fun s => (fst s, Some (snd s))) l) = Ok out /\
    map fst out = map fst l /\ forall t u, In (t, u) out -> exists q, u = Some q /\ (0 < q <= 1)%Q.
Proof. exact c78_uniqueness. Qed.
Print Assumptions C78_uniqueness.
Theorem C78_time_decay : forall l c, labelled l -> 2 <= length l -> (c <= 1)%Q ->
  exists out, decay_transform c (map (fun s => (fst s, Some (snd s))) l) = Ok out.
Proof. exact c78_decay. Qed.
Print Assumptions C78_time_decay.
Theorem C78_returns : forall l (close : list (ext R)), labelled l -> 2 <= length l -> length close = length l ->
  exists out, returns_transform (map (fun r => {| w_start := fst (fst r); w_end := Some (snd (fst r)); w_close := snd r |}) (combine l close)) = Ok out.
Proof. exact c78_returns. Qed.
Print Assumptions C78_returns.

(** A single label is rejected with an AssertionError whatever the bars, no labels with a ValueError. *)
Theorem C78_fewer_labels : forall l, labelled l -> length l < 2 ->
  let failure := match l with [] => ValueError | _ => AssertionError end in
  (forall bars, get_ind_matrix (complete l) bars = Err failure) /\
  average_uniqueness_transform (map (fun s => (fst s, Some (snd s))) l) = Err failure /\
  forall c, (c <= 1)%Q -> decay_transform c (map (fun s => (fst s, Some (snd s))) l) = Err failure.
Proof. exact c78_few. Qed.
Print Assumptions C78_fewer_labels.
Example C78_case : labelled flow_labels /\ 2 <= length flow_labels /\
  labelled [(1000000, 3000000)%Z] /\ labelled [] /\
  exists out, average_uniqueness_transform (map (fun s => (fst s, Some (snd s))) (firstn 3 flow_labels)) = Ok out /\
    map (fun r => option_map Qred (snd r)) out = [Some (11 # 18); Some (4 # 9); Some (11 # 18)]%Q.
Proof.
  split; [exact C77_case|]. split; [cbn; lia|].
  split; [apply (selected flow_labels); [exact C77_case|]; apply sub_take; constructor|].
  split; [apply (selected flow_labels); [exact C77_case|]; constructor|].
  eexists. split; vm_compute; reflexivity.
Qed.

(** ** C79: labels and the bagging classifier *)

(** Fitting proceeds on the rows of two or more labels, with any price bars, when the parameters are acceptable (in particular every
    row of X is the row of a label) and the libraries do their work. *)
Theorem C79_bagging : forall (num gen est0 model : Type) (np : numpy gen) (est : estimator num gen est0 model) p jobs schedule (d : data num) self h l,
  0 < jobs -> libraries_fine np est -> labelled l -> 2 <= length l -> samples_info_sets p = complete l -> (0 < update_probs_every p)%Z ->
  length (d_index num d) = length (d_rows num d) -> Forall (fun row => length row = d_width num d) (d_rows num d) ->
  (d_weight num d <> None -> support_sample_weight num gen est0 model est = true) -> oob_score p = false ->
  acceptable p d self h -> exists h' a, fit num gen est0 model np est p jobs schedule d self h = Ok (h', a).
Proof. exact c79. Qed.
Print Assumptions C79_bagging.

(** With out-of-bag scoring, under the further conditions of C52 (each estimator leaves a sample out). *)
Theorem C79_bagging_out_of_bag : forall (num gen est0 model : Type) (np : numpy gen) (est : estimator num gen est0 model) p jobs schedule (d : data num) self h l,
  0 < jobs -> libraries_fine np est -> labelled l -> 2 <= length l -> samples_info_sets p = complete l -> (0 < update_probs_every p)%Z ->
  length (d_index num d) = length (d_rows num d) -> Forall (fun row => length row = d_width num d) (d_rows num d) ->
  (d_weight num d <> None -> support_sample_weight num gen est0 model est = true) -> oob_score p = true -> acceptable p d self h ->
  exists h1 a1 ts, fit num gen est0 model np est (with_oob p false) jobs schedule d self h = Ok (h1, a1) /\ ensemble model a1 = Some ts /\
    (scores_rows est (n_classes model a1) ->
     (forall t, In t ts -> exists i, i < length (d_rows num d) /\ ~ In i (t_samples model t)) ->
     exists h' a, fit num gen est0 model np est p jobs schedule d self h = Ok (h', a) /\ ensemble model a = Some ts).
Proof. exact c79_oob. Qed.
Print Assumptions C79_bagging_out_of_bag.
(** Three rows of the labels above. *)
Definition flow_params (oob : bool) : params := {|
  samples_info_sets := complete flow_labels; price_bars := [5000000]%Z; n_estimators := 2; max_samples := SInt 2; max_features := SInt 1;
  bootstrap_features := true; oob_score := oob; warm_start := false; random_state := 4; update_probs_every := 1 |}.
Definition flow_data : data Z := {| d_index := [2000000; 4000000; 12000000]%Z; d_rows := [[1; 2]; [2; 3]; [3; 4]]%Z; d_width := 2; d_labels := [1; -1; 1]%Z; d_weight := None |}.
Example C79_case : forall oob, acceptable (flow_params oob) flow_data (@fresh ex_model) [].
Proof.
  intros oob. split; [exists 2; split; [cbn; lia|reflexivity]|]. split; [exists 1; split; [reflexivity|cbn; lia]|]. split; [intros [C _]; discriminate|].
  split; [intros t Ht; cbn in Ht; repeat destruct Ht as [<-|Ht]; try contradiction; eexists; cbn; eauto 15|].
  split; [cbn; lia|]. split; [cbn; lia|]. split; [reflexivity|]. split; [discriminate|]. split; [reflexivity|discriminate].
Qed.

(** ** C80: CUSUM events and the trend scanner *)

(** Scanning the bars selected by the CUSUM filter never complains about the events: the only possible failure is the division by
    zero of a window on a straight line. There is one row per event, in order, as described by [row_ok], and its complete
    rows are labels for the properties above. *)
Theorem C80_sampled_trends : forall inv junk cfg (h : Q) (X : list (Z * ext Q)) (y : list (Z * R)) events,
  inv_sound inv -> inv_complete 2 inv -> t_step cfg = 1 -> 3 <= t_min cfg < t_window cfg ->
  increasingZ (map fst y) -> map fst X = map fst y -> cusum_transform h X = Ok events ->
  (forall e, snd (Trend_Model.transform inv junk cfg (Some events) y) = Err e -> e = ZeroDivisionError) /\
  (forall rows, snd (Trend_Model.transform inv junk cfg (Some events) y) = Ok rows ->
     Forall2 (row_ok cfg y) events rows /\ map tr_start rows = events /\ labelled (trend_spans rows)).
Proof. exact c80. Qed.
Print Assumptions C80_sampled_trends.

Example C80_case : cusum_transform (3 # 2) [(10%Z, Fin 5); (20%Z, Fin 3); (30%Z, Fin 2); (40%Z, Fin 2); (50%Z, Fin 2); (60%Z, Fin 7)]%Q = Ok [20; 60]%Z /\
  increasingZ (map fst flow_y) /\
  forall junk, exists rows, snd (Trend_Model.transform inv_small junk {| t_window := 4; t_min := 3; t_step := 1 |} (Some [20; 60]%Z) flow_y) = Ok rows.
Proof. split; [vm_compute; reflexivity|]. split; [unfold increasingZ; cbn; repeat constructor; lia|exact flow_trends]. Qed.
