(** The sequentially bootstrapped bagging classifier: C48-C52, C67, C68. *)
From Verif Require Import QSum Num Boot_Model Boot_Spec Bag_Model Bag_Spec Bag_Proofs2 Bag_Proofs4 Bag_Proofs5 Bag_Proofs6.
Open Scope nat_scope.

(** * Concrete libraries for the examples *)

(** A generator that counts; features from the front; the samples follow the counter. *)
Definition ex_np : numpy nat := {|
  new_state := Z.to_nat; next_int := fun g => (Z.of_nat (g * 7 + 3), S g);
  randint_below := fun g n k => (map (fun i => (g + i) mod n) (seq 0 k), S g);
  sample_without_replacement := fun g n k => (seq 0 k, S g);
  choices := fun g i p size => repeat ((g + i) mod length p) size |}.
(** Estimators that remember what they were trained with; a row with an even first entry is of the first class. *)
Definition ex_model := (nat * list (list Z) * list nat * list Q)%type.
Definition ex_prob (m : ex_model) (row : list Z) : list Q := match row with x :: _ => if Z.even x then [1; 0]%Q else [1 # 4; 3 # 4]%Q | [] => [1 # 2; 1 # 2]%Q end.
Definition ex_est : estimator Z nat nat ex_model := {|
  make := fun g => (g, S g); support_sample_weight := true;
  fit_weighted := fun e X y w => Ok (e, X, y, map Qred w); fit_plain := fun e X y => Ok (e, X, y, []);
  predict_proba := Some (fun m rows => Ok (map (ex_prob m) rows)); predict := fun m rows => Ok (map (fun _ => 0) rows) |}.
(** Without class probabilities. *)
Definition ex_class (m : ex_model) (row : list Z) : nat := match row with x :: _ => if Z.even x then 0 else 1 | [] => 0 end.
Definition ex_voter : estimator Z nat nat ex_model := {|
  make := fun g => (g, S g); support_sample_weight := true;
  fit_weighted := fun e X y w => Ok (e, X, y, map Qred w); fit_plain := fun e X y => Ok (e, X, y, []);
  predict_proba := None; predict := fun m rows => Ok (map (ex_class m) rows) |}.
(** Without sample weights: the probabilities are the frequencies of the classes it was trained on, and of no others. *)
Definition ex_plain : estimator Z nat nat ex_model := {|
  make := fun g => (g, S g); support_sample_weight := false;
  fit_weighted := fun e X y w => Ok (e, X, y, w); fit_plain := fun e X y => Ok (e, X, y, []);
  predict_proba := Some (fun m rows => let y := snd (fst m) in Ok (map (fun _ => map (fun c => Qn (count_occ Nat.eq_dec y c) / Qn (length y))%Q (nodup Nat.eq_dec y)) rows));
  predict := fun m rows => Ok (map (fun _ => 0) rows) |}.
Definition ex_samples : list (Z * Z) := [(10, 30); (20, 25); (40, 50)]%Z.
Definition ex_params (n : Z) (oob warm : bool) : params := {|
  samples_info_sets := complete ex_samples; price_bars := [5; 10; 20; 25; 30; 60]%Z; n_estimators := n; max_samples := SInt 2; max_features := SFloat (Fin (1 # 2));
  bootstrap_features := true; oob_score := oob; warm_start := warm; random_state := 4; update_probs_every := 1 |}.
Definition ex_data : data Z := {| d_index := [40; 10; 20]%Z; d_rows := [[1; 2]; [2; 3]; [3; 4]]%Z; d_width := 2; d_labels := [1; -1; 1]%Z; d_weight := Some 0 |}.
Definition ex_heap : heap := [[1; 2; 1 # 2]]%Q.
Definition ex_fit := fit Z nat nat ex_model ex_np ex_est.
Definition sizes {m} (r : result (heap * attributes m)) : result (list (list nat * list nat)) :=
  do ha <- r ;; match ensemble m (snd ha) with Some ts => Ok (map (fun t => (t_features m t, t_samples m t)) ts) | None => Err ValueError end.

Example ex_libraries : libraries_fine ex_np ex_est.
Proof.
  split; [intros; eexists; reflexivity|]. split; [intros; eexists; reflexivity|]. split; [|split].
  - intros g i p size Hp. cbn [choices ex_np]. split; [apply repeat_length|]. apply Forall_forall. intros x Hx. apply repeat_spec in Hx. subst.
    apply Nat.mod_upper_bound. destruct p; [congruence|discriminate].
  - intros g n k Hn. cbn [randint_below ex_np fst]. apply Forall_forall. intros x Hx. apply in_map_iff in Hx as (i & <- & _). apply Nat.mod_upper_bound. lia.
  - intros g n k Hk. cbn [sample_without_replacement ex_np fst]. apply Forall_forall. intros x Hx. apply in_seq in Hx. lia.
Qed.

(** ** C48: the number of workers and their timing do not matter *)

(** A schedule lists, round by round, the worker that makes the next round. *)
Theorem C48_workers : forall (num gen est0 model : Type) (np : numpy gen) (est : estimator num gen est0 model) p d self h n_jobs schedule n_jobs' schedule',
  0 < n_jobs -> 0 < n_jobs' ->
  visible (fit num gen est0 model np est p n_jobs schedule d self h) = visible (fit num gen est0 model np est p n_jobs' schedule' d self h).
Proof. intros. apply c48; assumption. Qed.
Print Assumptions C48_workers.

Example C48_case : sizes (ex_fit (ex_params 3 false false) 1 [] ex_data fresh ex_heap) = Ok [([0], [0; 1]); ([1], [1; 2]); ([0], [2; 0])] /\
  sizes (ex_fit (ex_params 3 false false) 2 [1; 0; 0] ex_data fresh ex_heap) = Ok [([0], [0; 1]); ([1], [1; 2]); ([0], [2; 0])].
Proof. vm_compute. auto. Qed.

(** ** C49: warm start *)

Theorem C49_warm_start : forall (num gen est0 model : Type) (np : numpy gen) (est : estimator num gen est0 model) p n1 n2 warm1 warm2 d h
  jobs schedule jobs' schedule' jobs'' schedule'' h1 a1,
  0 < jobs -> 0 < jobs' -> 0 < jobs'' -> oob_score p = false -> (n1 <= n2)%Z ->
  fit num gen est0 model np est (with_size p n1 warm1) jobs schedule d fresh h = Ok (h1, a1) ->
  visible (fit num gen est0 model np est (with_size p n2 true) jobs' schedule' d a1 h1) = visible (fit num gen est0 model np est (with_size p n2 warm2) jobs'' schedule'' d fresh h).
Proof. intros num gen est0 model np est p n1 n2 warm1 warm2 d h jobs schedule jobs' schedule' jobs'' schedule'' h1 a1 H1 H2 H3 H4 H5 H6. exact (c49 np est p n1 n2 warm1 warm2 d h jobs schedule jobs' schedule' jobs'' schedule'' h1 a1 H1 H2 H3 H4 H5 H6). Qed.
Print Assumptions C49_warm_start.

Theorem C49_fewer : forall (num gen est0 model : Type) (np : numpy gen) (est : estimator num gen est0 model) p n1 n2 warm1 d h jobs schedule jobs' schedule' h1 a1,
  0 < jobs -> 0 < jobs' -> (n2 < n1)%Z ->
  fit num gen est0 model np est (with_size p n1 warm1) jobs schedule d fresh h = Ok (h1, a1) ->
  fit num gen est0 model np est (with_size p n2 true) jobs' schedule' d a1 h1 = Err ValueError.
Proof. intros num gen est0 model np est p n1 n2 warm1 d h jobs schedule jobs' schedule' h1 a1 H1 H2 H3 H4. exact (c49_fewer np est p n1 n2 warm1 d h jobs schedule jobs' schedule' h1 a1 H1 H2 H3 H4). Qed.
Print Assumptions C49_fewer.

Example C49_case : exists h1 a1, ex_fit (with_size (ex_params 0 false false) 1 false) 1 [] ex_data fresh ex_heap = Ok (h1, a1) /\
  sizes (ex_fit (with_size (ex_params 0 false false) 3 true) 2 [] ex_data a1 h1) = Ok [([0], [0; 1]); ([1], [1; 2]); ([0], [2; 0])].
Proof. eexists. eexists. split; [vm_compute; reflexivity|]. vm_compute. reflexivity. Qed.

(** ** C50: what the estimators are trained with *)

(** [comes_from] (Bag_Spec.v): copy seeded, then features, then samples drawn from the estimator's own generator; weights are
    (given weight) x (number of draws). *)
Theorem C50_training : forall (num gen est0 model : Type) (np : numpy gen) (est : estimator num gen est0 model) p jobs schedule (d : data num) self h h' a samples,
  0 < jobs -> fit num gen est0 model np est p jobs schedule d self h = Ok (h', a) ->
  (warm_start p = true -> ensemble model self = None) -> samples_info_sets p = complete samples -> NoDup (map fst samples) ->
  length (d_index num d) = length (d_rows num d) -> (forall g, fair_choice (choices gen np g)) -> (0 < update_probs_every p)%Z ->
  exists ts given y m ms mf, ensemble model a = Some ts /\ length ts = Z.to_nat (n_estimators p) /\ given_is d h given /\ codes_of (d_labels num d) y /\
    sample_size (max_samples p) (length (d_rows num d)) ms /\ feature_size (max_features p) (d_width num d) mf /\
    forall k t, nth_error ts k = Some t ->
      comes_from np est (d_rows num d) (d_width num d) y given (bootstrap_features p) mf ms m (update_probs_every p) (kth_seed np (random_state p) k) t /\
      length (t_samples model t) = ms /\ Forall (fun i => i < length (d_rows num d)) (t_samples model t) /\
      list_sum (map (count_occ Nat.eq_dec (t_samples model t)) (seq 0 (length (d_rows num d)))) = ms.
Proof.
  intros num gen est0 model np est p jobs schedule d self h h' a samples H1 H2 H3 H4 H5 H6 H7 H8.
  destruct (c50 np est p jobs schedule d self h h' a samples H1 H2 H3 H4 H5 H6 H7 H8) as (ts & given & y & m & idx & ms & mf & A & B & C & D & E & F & _ & _ & _ & _ & _ & G).
  exists ts, given, y, m, ms, mf. auto 8.
Qed.
Print Assumptions C50_training.

(** No array of the caller is changed. *)
Theorem C50_weights_kept : forall (num gen est0 model : Type) (np : numpy gen) (est : estimator num gen est0 model) p n_jobs schedule d self h h' a,
  0 < n_jobs -> fit num gen est0 model np est p n_jobs schedule d self h = Ok (h', a) -> forall i v, nth_error h i = Some v -> nth_error h' i = Some v.
Proof. intros num gen est0 model np est p n_jobs schedule d self h h' a H1 H2. eapply heap_kept; eassumption. Qed.
Print Assumptions C50_weights_kept.

Example C50_case : match ex_fit (ex_params 2 false false) 2 [1; 0] ex_data fresh ex_heap with
  | Ok (h', {| ensemble := Some ts |}) => map (fun t => snd (t_model ex_model t)) ts = [[1; 2; 0]; [0; 2; 1 # 2]]%Q /\ firstn 1 h' = ex_heap
  | _ => False
  end.
Proof. vm_compute. auto. Qed.

(** ** C67: the bootstrap uses the label spans of the rows that fit is given *)

Theorem C67_label_spans : forall (num gen est0 model : Type) (np : numpy gen) (est : estimator num gen est0 model) p jobs schedule (d : data num) self h h' a samples,
  0 < jobs -> fit num gen est0 model np est p jobs schedule d self h = Ok (h', a) ->
  (warm_start p = true -> ensemble model self = None) -> samples_info_sets p = complete samples -> NoDup (map fst samples) ->
  length (d_index num d) = length (d_rows num d) -> (forall g, fair_choice (choices gen np g)) -> (0 < update_probs_every p)%Z ->
  exists ts m times ms, ensemble model a = Some ts /\ sample_size (max_samples p) (length (d_rows num d)) ms /\
    ncols m = length (d_rows num d) /\ nrows m = length times /\ increasingZ times /\ (forall tau, In tau times <-> row_time samples (price_bars p) tau) /\
    (forall r i tau s e, nth_error times r = Some tau -> nth_error (d_index num d) i = Some s -> In (s, e) samples -> (entry m r i = true <-> (s <= tau <= e)%Z)) /\
    forall k t, nth_error ts k = Some t -> exists g log, seq_bootstrap m (choices gen np g) (Some (Z.of_nat ms)) (update_probs_every p) = Ok (t_samples model t, log).
Proof.
  intros num gen est0 model np est p jobs schedule d self h h' a samples H1 H2 H3 H4 H5 H6 H7 H8.
  destruct (c50 np est p jobs schedule d self h h' a samples H1 H2 H3 H4 H5 H6 H7 H8) as (ts & given & y & m & idx & ms & mf & A & B & C & D & E & F & I1 & I2 & I3 & I4 & I5 & G).
  exists ts, m, idx, ms. repeat (split; [assumption|]). intros k t Ht. destruct (G k t Ht) as ((e & g & fs & g' & smp & lg & _ & _ & S & _ & -> & _) & _). eauto.
Qed.
Print Assumptions C67_label_spans.

(** The hypotheses hold of the case above, whose rows are given in another order than the labels. *)
Example C67_case : NoDup (map fst ex_samples) /\ samples_info_sets (ex_params 2 false false) = complete ex_samples /\
  length (d_index Z ex_data) = length (d_rows Z ex_data) /\ (exists h' a, ex_fit (ex_params 2 false false) 2 [1; 0] ex_data fresh ex_heap = Ok (h', a)).
Proof.
  split; [repeat constructor; cbn; intuition discriminate|]. split; [reflexivity|]. split; [reflexivity|]. eexists. eexists. vm_compute. reflexivity.
Qed.

(** ** C51: out-of-bag decision *)

(** With class probabilities, the decision is the mean of the probabilities of the estimators that were not trained on the sample. *)
Theorem C51_mean_of_probabilities : forall (num gen est0 model : Type) (np : numpy gen) (est : estimator num gen est0 model) p jobs schedule (d : data num) self h h' a proba f,
  0 < jobs -> fit num gen est0 model np est p jobs schedule d self h = Ok (h', a) -> oob_score p = true ->
  predict_proba num gen est0 model est = Some proba -> row_wise proba f (n_classes model a) -> (forall m x, qsum (f m x) == 1)%Q ->
  exists ts decision score, ensemble model a = Some ts /\ oob model a = Some (decision, score) /\ length decision = length (d_rows num d) /\
    forall i x, nth_error (d_rows num d) i = Some x -> exists row l, nth_error decision i = Some row /\ opinions f ts i x l /\ mean_of (n_classes model a) l row.
Proof. intros num gen est0 model np est p jobs schedule d self h h' a proba f H1 H2 H3 H4 H5 H6. eapply c51_proba; eassumption. Qed.
Print Assumptions C51_mean_of_probabilities.

(** Without class probabilities, it is the share of votes. *)
Theorem C51_share_of_votes : forall (num gen est0 model : Type) (np : numpy gen) (est : estimator num gen est0 model) p jobs schedule (d : data num) self h h' a f,
  0 < jobs -> fit num gen est0 model np est p jobs schedule d self h = Ok (h', a) -> oob_score p = true ->
  predict_proba num gen est0 model est = None -> row_wise_labels (predict num gen est0 model est) f -> (forall m x, f m x < n_classes model a) ->
  exists ts decision score, ensemble model a = Some ts /\ oob model a = Some (decision, score) /\ length decision = length (d_rows num d) /\
    forall i x, nth_error (d_rows num d) i = Some x -> exists row l, nth_error decision i = Some row /\ opinions f ts i x l /\ share_of (n_classes model a) l row.
Proof. intros num gen est0 model np est p jobs schedule d self h h' a f H1 H2 H3 H4 H5 H6. eapply c51_labels; eassumption. Qed.
Print Assumptions C51_share_of_votes.

(** The score is the share of samples whose class is the first maximum of their decision; a sample without decision counts as class 0. *)
Theorem C51_score : forall (num gen est0 model : Type) (np : numpy gen) (est : estimator num gen est0 model) p jobs schedule (d : data num) self h h' a proba f,
  0 < jobs -> fit num gen est0 model np est p jobs schedule d self h = Ok (h', a) -> oob_score p = true ->
  predict_proba num gen est0 model est = Some proba -> row_wise proba f (n_classes model a) -> (forall m x, qsum (f m x) == 1)%Q ->
  exists ts y decision q guesses, ensemble model a = Some ts /\ codes_of (d_labels num d) y /\ oob model a = Some (decision, Fin q) /\ length guesses = length (d_rows num d) /\
    (q == Qn (length (filter (fun gy => Nat.eqb (fst gy) (snd gy)) (combine guesses y))) / Qn (length (d_rows num d)))%Q /\
    forall i x g, nth_error (d_rows num d) i = Some x -> nth_error guesses i = Some g -> exists l, opinions f ts i x l /\
      match l with [] => g = 0 | _ => first_max (map (fun c => qmean (map (fun v => nth c v 0) l))%Q (seq 0 (n_classes model a))) g end.
Proof. intros num gen est0 model np est p jobs schedule d self h h' a proba f H1 H2 H3 H4 H5 H6. eapply c51_score; eassumption. Qed.
Print Assumptions C51_score.

Definition red (x : ext Q) : ext Q := match x with Fin q => Fin (Qred q) | _ => x end.
Example C51_case : match ex_fit (ex_params 3 true false) 2 [] ex_data fresh ex_heap with
  | Ok (_, {| n_classes := nc; oob := Some (decision, score) |}) =>
      nc = 2 /\ map (map red) decision = [[Fin 1; Fin 0]; [Fin 1; Fin 0]; [Fin (1 # 4); Fin (3 # 4)]]%Q /\ red score = Fin (2 # 3)%Q
  | _ => False
  end.
Proof. vm_compute. auto. Qed.
Example C51_case_hypotheses : row_wise (fun m rows => Ok (map (ex_prob m) rows)) ex_prob 2 /\ (forall m x, qsum (ex_prob m x) == 1)%Q.
Proof.
  split; [split; [reflexivity|]|]; intros m [|x r]; try reflexivity; cbn [ex_prob]; destruct (Z.even x); reflexivity.
Qed.
Example C51_case_votes : match fit Z nat nat ex_model ex_np ex_voter (ex_params 3 true false) 2 [] ex_data fresh ex_heap with
  | Ok (_, {| n_classes := nc; oob := Some (decision, score) |}) =>
      nc = 2 /\ map (map red) decision = [[Fin 1; Fin 0]; [Fin 1; Fin 0]; [Fin 0; Fin 1]]%Q /\ red score = Fin (2 # 3)%Q
  | _ => False
  end.
Proof. vm_compute. auto. Qed.

(** The full claim fails for estimators that cannot use weights: one that was trained on drawn rows of a single class has one
    column of probabilities, which is added to every class. Here the only estimator not trained on sample 1 was trained on class 1
    only and is certain of it, but the decision is one half for each class. *)
Theorem C51_missing_class_refuted : exists (np : numpy nat) (est : estimator Z nat nat ex_model) p d h h' a ts decision score t,
  libraries_fine np est /\ oob_score p = true /\ fit Z nat nat ex_model np est p 1 [] d fresh h = Ok (h', a) /\
  ensemble ex_model a = Some ts /\ oob ex_model a = Some (decision, score) /\ unseen 1 ts = [t] /\ snd (fst (t_model ex_model t)) = [1; 1] /\
  (exists proba x', predict_proba Z nat nat ex_model est = Some proba /\ columns_of [nth 1 (d_rows Z d) []] (t_features ex_model t) x' /\
    option_map (map (map Qred)) (match proba (t_model ex_model t) x' with Ok v => Some v | Err _ => None end) = Some [[1%Q]]) /\
  option_map (map red) (nth_error decision 1) = Some [Fin (1 # 2); Fin (1 # 2)]%Q.
Proof.
  exists ex_np, ex_plain, (ex_params 3 true false), {| d_index := [40; 10; 20]%Z; d_rows := [[1; 2]; [2; 3]; [3; 4]]%Z; d_width := 2; d_labels := [1; -1; 1]%Z; d_weight := None |}, [].
  do 6 eexists. split; [|split; [reflexivity|split; [vm_compute; reflexivity|split; [reflexivity|split; [reflexivity|split; [vm_compute; reflexivity|split; [reflexivity|split]]]]]]].
  - destruct ex_libraries as (_ & _ & H). split; [intros; eexists; reflexivity|]. split; [intros; eexists; reflexivity|exact H].
  - do 2 eexists. split; [reflexivity|]. split; [cbn; constructor; [|constructor]; constructor; [reflexivity|constructor]|]. vm_compute. reflexivity.
  - vm_compute. reflexivity.
Qed.
Print Assumptions C51_missing_class_refuted.

(** ** C68: the score includes samples on which every estimator was trained *)

(** Only sample 2 has an out-of-bag decision, and that decision is right; the score is 2/3, because samples 0 and 1, whose
    decisions are missing, count as first class. *)
Theorem C68_score_without_decision_refuted : exists (np : numpy nat) (est : estimator Z nat nat ex_model) p d h h' a ts decision score,
  libraries_fine np est /\ oob_score p = true /\ fit Z nat nat ex_model np est p 1 [] d fresh h = Ok (h', a) /\
  ensemble ex_model a = Some ts /\ oob ex_model a = Some (decision, score) /\ codes_of (d_labels Z d) [1; 0; 1] /\
  unseen 0 ts = [] /\ unseen 1 ts = [] /\ unseen 2 ts <> [] /\
  option_map (map red) (nth_error decision 2) = Some [Fin (1 # 4); Fin (3 # 4)]%Q /\ red score = Fin (2 # 3)%Q.
Proof.
  exists ex_np, ex_est, (ex_params 1 true false), ex_data, ex_heap.
  do 5 eexists. split; [exact ex_libraries|]. split; [reflexivity|]. split; [vm_compute; reflexivity|]. split; [reflexivity|]. split; [reflexivity|].
  split; [exists [-1; 1]%Z; split; [cbn; repeat constructor|split; [cbn; intuition|repeat constructor]]|].
  split; [reflexivity|]. split; [reflexivity|]. split; [discriminate|]. vm_compute. auto.
Qed.
Print Assumptions C68_score_without_decision_refuted.

(** ** C52: what fit rejects *)

(** [acceptable] (Bag_Spec.v) lists the conditions. *)
Theorem C52_rejects : forall (num gen est0 model : Type) (np : numpy gen) (est : estimator num gen est0 model) p jobs schedule (d : data num) self h h' a,
  fit num gen est0 model np est p jobs schedule d self h = Ok (h', a) -> 0 < jobs -> acceptable p d self h.
Proof. intros num gen est0 model np est p jobs schedule d self h h' a H1 H2. eapply c52_rejects; eassumption. Qed.
Print Assumptions C52_rejects.

Theorem C52_exceptions : forall (num gen est0 model : Type) (np : numpy gen) (est : estimator num gen est0 model) p jobs schedule (d : data num) self h m times,
  0 < jobs -> get_ind_matrix (samples_info_sets p) (price_bars p) = Ok (m, times) ->
  match max_samples p with SInt _ | SFloat (Fin _) => True | _ => False end -> match max_features p with SInt _ | SFloat (Fin _) => True | _ => False end ->
  (forall a, d_weight num d = Some a -> a < length h) -> ~ acceptable p d self h ->
  ((exists t, In t (d_index num d) /\ forall e, ~ In (Some t, e) (samples_info_sets p)) -> fit num gen est0 model np est p jobs schedule d self h = Err AssertionError) /\
  ((forall t, In t (d_index num d) -> exists e, In (Some t, e) (samples_info_sets p)) -> fit num gen est0 model np est p jobs schedule d self h = Err ValueError).
Proof. intros num gen est0 model np est p jobs schedule d self h m times H1 H2 H3 H4 H5 H6. eapply c52_exceptions; eassumption. Qed.
Print Assumptions C52_exceptions.

(** Sizes that are not finite numbers, on data that passes the earlier checks: an infinite max_samples is an OverflowError, NaN a ValueError,
    anything else (None, say) a TypeError; all of them are a ValueError as max_features. *)
Theorem C52_unusual_sizes : forall (num gen est0 model : Type) (np : numpy gen) (est : estimator num gen est0 model) p jobs schedule (d : data num) self h m times,
  0 < jobs -> get_ind_matrix (samples_info_sets p) (price_bars p) = Ok (m, times) ->
  (forall t, In t (d_index num d) -> exists e, In (Some t, e) (samples_info_sets p)) ->
  0 < length (d_rows num d) -> 0 < d_width num d -> length (d_labels num d) = length (d_rows num d) ->
  (forall a, d_weight num d = Some a -> exists w, nth_error h a = Some w /\ length w = length (d_rows num d)) -> (0 < n_estimators p)%Z ->
  (max_samples p = SFloat PInf \/ max_samples p = SFloat NInf -> fit num gen est0 model np est p jobs schedule d self h = Err OverflowError) /\
  (max_samples p = SFloat NaN -> fit num gen est0 model np est p jobs schedule d self h = Err ValueError) /\
  (max_samples p = SOther -> fit num gen est0 model np est p jobs schedule d self h = Err TypeError) /\
  ((exists k, sample_size (max_samples p) (length (d_rows num d)) k) ->
   max_features p = SFloat PInf \/ max_features p = SFloat NInf \/ max_features p = SFloat NaN \/ max_features p = SOther ->
   fit num gen est0 model np est p jobs schedule d self h = Err ValueError).
Proof. intros num gen est0 model np est p jobs schedule d self h m times H1 H2 H3 H4 H5 H6 H7 H8. eapply c52_unusual; eassumption. Qed.
Print Assumptions C52_unusual_sizes.
Example C52_case_unusual : 
  ex_fit {| samples_info_sets := complete ex_samples; price_bars := []; n_estimators := 1; max_samples := SFloat PInf; max_features := SInt 2;
    bootstrap_features := true; oob_score := false; warm_start := false; random_state := 4; update_probs_every := 1 |} 1 [] ex_data fresh ex_heap = Err OverflowError /\
  ex_fit {| samples_info_sets := complete ex_samples; price_bars := []; n_estimators := 1; max_samples := SFloat (Fin (1 # 1)); max_features := SOther;
    bootstrap_features := true; oob_score := false; warm_start := false; random_state := 4; update_probs_every := 1 |} 1 [] ex_data fresh ex_heap = Err ValueError.
Proof. vm_compute. auto. Qed.

(** Everything else proceeds without out-of-bag scoring, if the labels have distinct starts, the rows have the width of X and weights
    are only given to estimators that can use them. *)
Theorem C52_proceeds : forall (num gen est0 model : Type) (np : numpy gen) (est : estimator num gen est0 model) p jobs schedule (d : data num) self h samples m times,
  0 < jobs -> libraries_fine np est -> samples_info_sets p = complete samples ->
  get_ind_matrix (complete samples) (price_bars p) = Ok (m, times) -> NoDup (map fst samples) -> (0 < update_probs_every p)%Z ->
  length (d_index num d) = length (d_rows num d) -> Forall (fun row => length row = d_width num d) (d_rows num d) ->
  (d_weight num d <> None -> support_sample_weight num gen est0 model est = true) -> oob_score p = false ->
  acceptable p d self h -> exists h' a, fit num gen est0 model np est p jobs schedule d self h = Ok (h', a).
Proof. intros num gen est0 model np est p jobs schedule d self h samples m times H1 H2 H3 H4 H5 H6 H7 H8 H9 H10 H11. eapply c52_proceeds; eassumption. Qed.
Print Assumptions C52_proceeds.

(** With out-of-bag scoring, for estimators that work row by row: it proceeds, with the same ensemble, if each estimator leaves some
    sample out. If an estimator has seen all samples and estimators reject an empty batch (those of sklearn do), fit fails although the
    parameters are acceptable. *)
Theorem C52_proceeds_out_of_bag_partial : forall (num gen est0 model : Type) (np : numpy gen) (est : estimator num gen est0 model) p jobs schedule (d : data num) self h samples m times,
  0 < jobs -> libraries_fine np est -> samples_info_sets p = complete samples ->
  get_ind_matrix (complete samples) (price_bars p) = Ok (m, times) -> NoDup (map fst samples) -> (0 < update_probs_every p)%Z ->
  length (d_index num d) = length (d_rows num d) -> Forall (fun row => length row = d_width num d) (d_rows num d) ->
  (d_weight num d <> None -> support_sample_weight num gen est0 model est = true) -> oob_score p = true -> acceptable p d self h ->
  exists h1 a1 ts, fit num gen est0 model np est (with_oob p false) jobs schedule d self h = Ok (h1, a1) /\ ensemble model a1 = Some ts /\
    (scores_rows est (n_classes model a1) ->
     ((forall t, In t ts -> exists i, i < length (d_rows num d) /\ ~ In i (t_samples model t)) ->
        exists h' a, fit num gen est0 model np est p jobs schedule d self h = Ok (h', a) /\ ensemble model a = Some ts) /\
     (rejects_empty est -> (exists t, In t ts /\ forall i, i < length (d_rows num d) -> In i (t_samples model t)) ->
        fit num gen est0 model np est p jobs schedule d self h = Err ValueError)).
Proof. intros num gen est0 model np est p jobs schedule d self h samples m times H1 H2 H3 H4 H5 H6 H7 H8 H9 H10 H11. eapply c52_oob; eassumption. Qed.
Print Assumptions C52_proceeds_out_of_bag_partial.
(** Two samples, each drawn once by the only estimator: acceptable parameters, and an error. *)
Definition ex_strict : estimator Z nat nat ex_model := {|
  make := fun g => (g, S g); support_sample_weight := true;
  fit_weighted := fun e X y w => Ok (e, X, y, map Qred w); fit_plain := fun e X y => Ok (e, X, y, []);
  predict_proba := Some (fun m rows => match rows with [] => Err ValueError | _ => Ok (map (ex_prob m) rows) end); predict := fun m rows => Ok (map (fun _ => 0) rows) |}.
Definition ex_two : data Z := {| d_index := [40; 10]%Z; d_rows := [[1; 2]; [2; 3]]%Z; d_width := 2; d_labels := [1; -1]%Z; d_weight := None |}.
Theorem C52_out_of_bag_refuted : exists (np : numpy nat) (est : estimator Z nat nat ex_model) p d,
  libraries_fine np est /\ scores_rows est 2 /\ rejects_empty est /\ acceptable p d (@fresh ex_model) [] /\
  fit Z nat nat ex_model np est p 1 [] d fresh [] = Err ValueError.
Proof.
  exists ex_np, ex_strict, (ex_params 1 true false), ex_two. split; [|split; [|split; [|split]]].
  - destruct ex_libraries as (_ & _ & H). split; [intros; eexists; reflexivity|]. split; [intros; eexists; reflexivity|exact H].
  - left. eexists _, ex_prob. split; [reflexivity|]. split; [|intros m [|x r]; try reflexivity; cbn [ex_prob]; destruct (Z.even x); reflexivity].
    intros m [|r rows] H; [congruence|reflexivity].
  - intros m. reflexivity.
  - split; [exists 2; split; [cbn; lia|reflexivity]|].
    split; [exists 1; split; [split; [reflexivity|discriminate]|]; exists 1; split; [split; [discriminate|reflexivity]|reflexivity]|].
    split; [cbn; intros [C _]; discriminate|]. split; [|split; [cbn; lia|split; [cbn; lia|split; [reflexivity|split; [discriminate|split; [reflexivity|discriminate]]]]]].
    intros t [<-|[<-|[]]]; [exists (Some 50%Z)|exists (Some 30%Z)]; cbn; auto.
  - vm_compute. reflexivity.
Qed.
Print Assumptions C52_out_of_bag_refuted.

(** Weights for an estimator that cannot use them are a ValueError. *)
Theorem C52_unusable_weights : forall (num gen est0 model : Type) (np : numpy gen) (est : estimator num gen est0 model) p jobs schedule (d : data num) self h m times,
  0 < jobs -> get_ind_matrix (samples_info_sets p) (price_bars p) = Ok (m, times) -> acceptable p d self h ->
  (forall ts, warm_start p = true -> ensemble model self = Some ts -> (Z.of_nat (length ts) < n_estimators p)%Z) ->
  d_weight num d <> None -> support_sample_weight num gen est0 model est = false -> fit num gen est0 model np est p jobs schedule d self h = Err ValueError.
Proof. intros num gen est0 model np est p jobs schedule d self h m times H1 H2 H3 H4 H5 H6. eapply c52_weights; eassumption. Qed.
Print Assumptions C52_unusable_weights.

(** A fraction of the samples is rounded down before it is checked, so 1.05 of 3 samples is accepted; 4/3 is not. *)
Example C52_case : (exists h' a, ex_fit {| samples_info_sets := complete ex_samples; price_bars := []; n_estimators := 1; max_samples := SFloat (Fin (21 # 20)); max_features := SInt 2;
    bootstrap_features := true; oob_score := false; warm_start := false; random_state := 4; update_probs_every := 1 |} 1 [] ex_data fresh ex_heap = Ok (h', a)) /\
  ex_fit {| samples_info_sets := complete ex_samples; price_bars := []; n_estimators := 1; max_samples := SFloat (Fin (4 # 3)); max_features := SInt 2;
    bootstrap_features := true; oob_score := false; warm_start := false; random_state := 4; update_probs_every := 1 |} 1 [] ex_data fresh ex_heap = Err ValueError /\
  ex_fit (ex_params 1 true true) 1 [] ex_data fresh ex_heap = Err ValueError /\
  ex_fit (ex_params 1 false false) 1 [] {| d_index := [40; 10; 21]%Z; d_rows := [[1; 2]; [2; 3]; [3; 4]]%Z; d_width := 2; d_labels := [1; -1; 1]%Z; d_weight := None |} fresh [] = Err AssertionError.
Proof. split; [eexists; eexists; vm_compute; reflexivity|]. vm_compute. auto. Qed.
Example C52_case_acceptable : acceptable (ex_params 2 false false) ex_data (@fresh ex_model) ex_heap.
Proof.
  apply (C52_rejects Z nat nat ex_model ex_np ex_est (ex_params 2 false false) 1 [] ex_data fresh ex_heap
    (match ex_fit (ex_params 2 false false) 1 [] ex_data fresh ex_heap with Ok (h, _) => h | Err _ => [] end)
    (match ex_fit (ex_params 2 false false) 1 [] ex_data fresh ex_heap with Ok (_, a) => a | Err _ => fresh end)); [vm_compute; reflexivity|lia].
Qed.
