(** C01-C11: combinatorial purged cross-validation. *)
From Coq Require Import Permutation.
From Verif Require Import Prelude CV_Spec CV_Model CV_Proofs CV_Proofs2 CV_Proofs3.

(** ** C01: the test folds partition the samples *)

Theorem C01_folds_partition : forall c n bounds,
  fold_bounds c n = Ok bounds -> near_equal_partition n (n_groups c) bounds.
Proof. exact fold_bounds_partition. Qed.
Print Assumptions C01_folds_partition.

(** With at least as many samples as groups the folds exist; with fewer, splitting raises IndexError. *)
Theorem C01_enough_samples : forall c n, n_groups c <> 0 ->
  if Nat.ltb n (n_groups c) then fold_bounds c n = Err IndexError /\ split c n = Err IndexError
  else exists bounds, fold_bounds c n = Ok bounds.
Proof. exact fold_bounds_total. Qed.
Print Assumptions C01_enough_samples.

Definition ex_pred : list Z := map Z.of_nat (seq 0 12).
Definition ex_eval : list (option Z) := map (fun i => Some (Z.of_nat i + 2)%Z) (seq 0 12).
Definition ex_cv (emb : Z) : cv :=
  {| n_splits := 6; n_groups := 4; n_test_splits := 2; pred_times := ex_pred; eval_times := ex_eval; embargo_td := emb |}.

Example ex_cv_made : make_cv 4 2 (Some ex_pred) (Some ex_eval) 0 = Ok (ex_cv 0).
Proof. vm_compute. reflexivity. Qed.
Example ex_data_ok : length ex_pred = 12 /\ length ex_eval = 12 /\ non_decreasing ex_pred /\ ends_after_start ex_pred ex_eval.
Proof.
  split; [reflexivity|split; [reflexivity|split]].
  - intros i j x y Hij Hi Hj. unfold ex_pred in *.
    rewrite nth_error_map in Hi, Hj.
    destruct (nth_error (seq 0 12) i) as [a|] eqn:E; [|discriminate]. destruct (nth_error (seq 0 12) j) as [b|] eqn:E'; [|discriminate].
    apply PreludeFacts.nth_error_seq in E, E'. simpl in Hi, Hj. inversion Hi; inversion Hj. lia.
  - intros i x y Hi Hj. unfold ex_pred, ex_eval in *. rewrite nth_error_map in Hi, Hj.
    destruct (nth_error (seq 0 12) i) as [a|] eqn:E; [|discriminate]. simpl in Hi, Hj. inversion Hi; inversion Hj. lia.
Qed.
Example ex_folds : fold_bounds (ex_cv 0) 14 = Ok [(0, 4); (4, 8); (8, 11); (11, 14)].
Proof. vm_compute. reflexivity. Qed.

(** ** C02: every combination of test groups is used exactly once *)

Theorem C02_every_combination_once : forall groups tests pred ev emb c n,
  make_cv groups tests (Some pred) (Some ev) emb = Ok c ->
  (groups <= Z.of_nat n)%Z -> length pred = n -> length ev = n -> non_decreasing pred ->
  exists ss bounds, split c n = Ok ss /\ fold_bounds c n = Ok bounds /\
    length ss = choose (Z.to_nat groups) (Z.to_nat tests) /\
    NoDup (map snd ss) /\
    (forall T, In T (map snd ss) <->
       exists G, group_choice (Z.to_nat groups) (Z.to_nat tests) G /\ samples_of_groups bounds G T) /\
    (* the first split tests on the last groups *)
    (exists train T, nth_error ss 0 = Some (train, T) /\
       samples_of_groups bounds (seq (Z.to_nat groups - Z.to_nat tests) (Z.to_nat tests)) T) /\
    (* the reported number of splits *)
    ((Z.of_nat (choose (Z.to_nat groups) (Z.to_nat tests)) < 2 ^ 53)%Z -> n_splits c = Z.of_nat (length ss)).
Proof. exact (fun g t p e m c n H => c02 g t p e m c H n). Qed.
Print Assumptions C02_every_combination_once.

Example C02_case : option_map (map snd) (match split (ex_cv 0) 12 with Ok s => Some s | Err _ => None end) =
  Some [[6; 7; 8; 9; 10; 11]; [3; 4; 5; 9; 10; 11]; [3; 4; 5; 6; 7; 8];
        [0; 1; 2; 9; 10; 11]; [0; 1; 2; 6; 7; 8]; [0; 1; 2; 3; 4; 5]].
Proof. vm_compute. reflexivity. Qed.

(** The reported number of splits is the true one up to 2^53, and the nearest double from there on. *)
Theorem C02_reported_number : forall groups tests pred ev emb c, make_cv groups tests (Some pred) (Some ev) emb = Ok c ->
  let C := Z.of_nat (choose (Z.to_nat groups) (Z.to_nat tests)) in
  ((C < 2 ^ 53)%Z -> n_splits c = C) /\ ((2 ^ 53 <= C)%Z -> nearest_double C (n_splits c)).
Proof. exact reported_number. Qed.
Print Assumptions C02_reported_number.
Example C02_reported_case : forall pred ev, option_map n_splits (match make_cv 60 30 (Some pred) (Some ev) 0 with Ok c => Some c | Err _ => None end) = Some 118264581564861424%Z.
Proof. intros. vm_compute. reflexivity. Qed.

(** ** C03: each sample is tested equally often *)

Theorem C03_tested_equally_often : forall groups tests pred ev emb c n,
  make_cv groups tests (Some pred) (Some ev) emb = Ok c ->
  (groups <= Z.of_nat n)%Z -> length pred = n -> length ev = n -> non_decreasing pred ->
  exists ss, split c n = Ok ss /\ forall i, i < n ->
    length (filter (fun sp => existsb (Nat.eqb i) (snd sp)) ss) = choose (Z.to_nat groups - 1) (Z.to_nat tests - 1).
Proof. exact (fun g t p e m c n H => c03 g t p e m c H n). Qed.
Print Assumptions C03_tested_equally_often.

(** ** C04: train and test sets are disjoint, sorted, duplicate-free and in range *)

Theorem C04_train_test_disjoint : forall groups tests pred ev emb c n,
  make_cv groups tests (Some pred) (Some ev) emb = Ok c ->
  (groups <= Z.of_nat n)%Z -> length pred = n -> length ev = n -> non_decreasing pred ->
  exists ss, split c n = Ok ss /\ forall train test, In (train, test) ss ->
    increasing test /\
    (forall i, In i train -> i < n /\ ~ In i test) /\
    (forall i, In i test -> i < n) /\
    (ends_after_start pred ev -> increasing train).
Proof. exact (fun g t p e m c n H => c04 g t p e m c H n). Qed.
Print Assumptions C04_train_test_disjoint.

(** ** C05: no training label reaches into a later test period *)

Theorem C05_purging : forall groups tests pred ev emb c,
  make_cv groups tests (Some pred) (Some ev) emb = Ok c -> forall n,
  (groups <= Z.of_nat n)%Z -> length pred = n -> length ev = n -> non_decreasing pred ->
  forall ss train test, split c n = Ok ss -> In (train, test) ss ->
  forall t s, In t train -> In s test -> t < s ->
  exists y x, nth_error ev t = Some (Some y) /\ nth_error pred s = Some x /\ (y < x)%Z.
Proof. exact c05. Qed.
Print Assumptions C05_purging.

(** ** C06: embargo *)

(** The full claim is false of the code: with an embargo of 0 the third training sample of this split starts at
    time 6, before the label of the earlier test sample 5 ends at time 7. *)
Theorem C06_embargo_refuted : exists groups tests pred ev emb c n ss train test t s y x,
  make_cv groups tests (Some pred) (Some ev) emb = Ok c /\
  (groups <= Z.of_nat n)%Z /\ length pred = n /\ length ev = n /\ non_decreasing pred /\ ends_after_start pred ev /\
  split c n = Ok ss /\ In (train, test) ss /\
  In t train /\ In s test /\ s < t /\
  nth_error ev s = Some (Some y) /\ nth_error pred t = Some x /\ ~ (y + emb < x)%Z.
Proof.
  destruct ex_data_ok as (L1 & L2 & H1 & H2).
  exists 4%Z, 2%Z, ex_pred, ex_eval, 0%Z, (ex_cv 0), 12.
  destruct (split (ex_cv 0) 12) as [ss|] eqn:E; [|vm_compute in E; discriminate].
  exists ss, [0; 6], [3; 4; 5; 9; 10; 11], 6, 5, 7%Z, 6%Z.
  assert (ss = match split (ex_cv 0) 12 with Ok s => s | Err _ => [] end) as -> by now rewrite E.
  split; [exact ex_cv_made|]. repeat split; auto; try (vm_compute; intuition congruence); try lia.
Qed.
Print Assumptions C06_embargo_refuted.

(** What holds: the claim is true of every split for which some sample starts after the embargo of all its test
    labels. *)
Theorem C06_embargo_partial : forall groups tests pred ev emb c,
  make_cv groups tests (Some pred) (Some ev) emb = Ok c -> forall n,
  (groups <= Z.of_nat n)%Z -> length pred = n -> length ev = n -> non_decreasing pred ->
  forall ss train test, split c n = Ok ss -> In (train, test) ss ->
  (exists j x, nth_error pred j = Some x /\
     forall i y, In i test -> nth_error ev i = Some (Some y) -> (y + emb < x)%Z) ->
  forall t s y x, In t train -> In s test -> s < t ->
  nth_error ev s = Some (Some y) -> nth_error pred t = Some x -> (y + emb < x)%Z.
Proof. exact c06. Qed.
Print Assumptions C06_embargo_partial.

(** The hypothesis is met by the last split, which has training samples after its test block. *)
Example C06_case : exists ss, split (ex_cv 0) 12 = Ok ss /\ In ([8; 9; 10; 11], [0; 1; 2; 3; 4; 5]) ss /\
  exists j x, nth_error ex_pred j = Some x /\
    forall i y, In i [0; 1; 2; 3; 4; 5] -> nth_error ex_eval i = Some (Some y) -> (y + 0 < x)%Z.
Proof.
  eexists. split; [vm_compute; reflexivity|]. split; [vm_compute; tauto|].
  exists 8, 8%Z. split; [reflexivity|]. intros i y Hi Hy.
  simpl in Hi. repeat (destruct Hi as [<-|Hi]; [simpl in Hy; inversion Hy; lia|]). destruct Hi.
Qed.

(** ** C07: the training set is exactly what purging and embargo leave *)

Theorem C07_train_exact : forall groups tests pred ev emb c,
  make_cv groups tests (Some pred) (Some ev) emb = Ok c -> forall n,
  (groups <= Z.of_nat n)%Z -> length pred = n -> length ev = n -> non_decreasing pred ->
  forall ss train test, split c n = Ok ss -> In (train, test) ss -> forall i,
  In i train <->
    i < n /\ ~ In i test /\
    (forall s e, maximal_block test s e ->
       (* purge: the sample comes after the block, or its label ends before the block starts *)
       (e <= i \/ exists t0 y, nth_error pred s = Some t0 /\ nth_error ev i = Some (Some y) /\ (y < t0)%Z) /\
       (* embargo: the sample comes before the block's end, or it starts after the latest evaluation time used
          for the block plus the embargo; not applied when no sample at all starts that late *)
       (forall m, latest ev (firstn e test) m ->
          (exists j x, nth_error pred j = Some x /\ (m + emb < x)%Z) ->
          i < e \/ exists x, nth_error pred i = Some x /\ (m + emb < x)%Z)).
Proof. exact c07. Qed.
Print Assumptions C07_train_exact.

(** ** C08: a longer embargo never adds training data *)

Theorem C08_longer_embargo_refuted : exists groups tests pred ev emb emb' c c' n ss ss' j train test train' test' i,
  make_cv groups tests (Some pred) (Some ev) emb = Ok c /\
  make_cv groups tests (Some pred) (Some ev) emb' = Ok c' /\
  (groups <= Z.of_nat n)%Z /\ length pred = n /\ length ev = n /\ non_decreasing pred /\ ends_after_start pred ev /\
  (emb <= emb')%Z /\ split c n = Ok ss /\ split c' n = Ok ss' /\
  nth_error ss j = Some (train, test) /\ nth_error ss' j = Some (train', test') /\
  In i train' /\ ~ In i train.
Proof.
  destruct ex_data_ok as (L1 & L2 & H1 & H2).
  exists 4%Z, 2%Z, ex_pred, ex_eval, 1%Z, 5%Z, (ex_cv 1), (ex_cv 5), 12.
  destruct (split (ex_cv 1) 12) as [ss|] eqn:E; [|vm_compute in E; discriminate].
  destruct (split (ex_cv 5) 12) as [ss'|] eqn:E'; [|vm_compute in E'; discriminate].
  exists ss, ss', 5. eexists _, _, _, _, 6.
  assert (ss = match split (ex_cv 1) 12 with Ok s => s | Err _ => [] end) as -> by now rewrite E.
  assert (ss' = match split (ex_cv 5) 12 with Ok s => s | Err _ => [] end) as -> by now rewrite E'.
  repeat split; auto; try (vm_compute; reflexivity); try lia.
  - vm_compute. auto.
  - vm_compute. intuition lia.
Qed.
Print Assumptions C08_longer_embargo_refuted.

Theorem C08_longer_embargo_partial : forall groups tests pred ev emb emb' c c' n ss ss' j train test train' test',
  make_cv groups tests (Some pred) (Some ev) emb = Ok c ->
  make_cv groups tests (Some pred) (Some ev) emb' = Ok c' ->
  (groups <= Z.of_nat n)%Z -> length pred = n -> length ev = n -> non_decreasing pred ->
  (emb <= emb')%Z ->
  split c n = Ok ss -> split c' n = Ok ss' ->
  nth_error ss j = Some (train, test) -> nth_error ss' j = Some (train', test') ->
  (* missing from the full claim: some sample starts after the longer embargo of all test labels *)
  (exists k x, nth_error pred k = Some x /\
     forall i y, In i test -> nth_error ev i = Some (Some y) -> (y + emb' < x)%Z) ->
  test' = test /\ forall i, In i train' -> In i train.
Proof. exact c08. Qed.
Print Assumptions C08_longer_embargo_partial.

Example C08_case : exists ss ss', split (ex_cv 0) 12 = Ok ss /\ split (ex_cv 1) 12 = Ok ss' /\
  nth_error ss 5 = Some ([8; 9; 10; 11], [0; 1; 2; 3; 4; 5]) /\
  nth_error ss' 5 = Some ([9; 10; 11], [0; 1; 2; 3; 4; 5]).
Proof. eexists _, _. vm_compute. auto. Qed.

(** ** C09: constructor validation *)

Theorem C09_accepted_only_if_valid : forall groups tests p e emb c,
  make_cv groups tests p e emb = Ok c ->
  (1 <= tests <= groups - 1)%Z /\ (0 <= emb)%Z /\
  n_groups c = Z.to_nat groups /\ n_test_splits c = Z.to_nat tests /\
  p = Some (pred_times c) /\ e = Some (eval_times c) /\ embargo_td c = emb.
Proof. exact make_cv_accepted. Qed.
Print Assumptions C09_accepted_only_if_valid.

Theorem C09_valid_accepted : forall groups tests p e emb,
  (1 <= tests <= groups - 1)%Z -> (0 <= emb)%Z ->
  (exists c, make_cv groups tests (Some p) (Some e) emb = Ok c) \/
  (make_cv groups tests (Some p) (Some e) emb = Err OverflowError /\
   (2 ^ 53 <= Z.of_nat (choose (Z.to_nat groups) (Z.to_nat tests)))%Z).
Proof. exact make_cv_valid. Qed.
Print Assumptions C09_valid_accepted.

Theorem C09_error_class : forall groups tests p e emb x,
  make_cv groups tests p e emb = Err x -> x = ValueError \/ x = OverflowError.
Proof. exact make_cv_err. Qed.
Print Assumptions C09_error_class.

Example C09_rejects : make_cv 4 4 (Some ex_pred) (Some ex_eval) 0 = Err ValueError /\
  make_cv 4 0 (Some ex_pred) (Some ex_eval) 0 = Err ValueError /\
  make_cv 4 2 (Some ex_pred) (Some ex_eval) (-1) = Err ValueError /\
  make_cv 4 2 None (Some ex_eval) 0 = Err ValueError.
Proof. vm_compute. auto. Qed.

(** ** C10: number of backtest paths *)

Theorem C10_number_of_paths : forall ns k, 1 <= k <= ns ->
  (Z.of_nat (choose (ns - 1) (k - 1)) < 2 ^ 53)%Z ->
  compute_back_test_paths (Z.of_nat ns) k = Ok (Z.of_nat (choose (ns - 1) (k - 1))).
Proof. exact paths_count. Qed.
Print Assumptions C10_number_of_paths.

Example C10_case : compute_back_test_paths 10 4 = Ok 84%Z /\ choose 9 3 = 84.
Proof. vm_compute. auto. Qed.

(** ** C11: combinatorial backtest paths *)

(** What holds: for one test group, or all groups but one, and every outcome of the shuffles. *)
Theorem C11_paths_partial : forall groups tests pred ev emb c n,
  make_cv groups tests (Some pred) (Some ev) emb = Ok c ->
  (groups <= Z.of_nat n)%Z -> length pred = n -> length ev = n -> non_decreasing pred ->
  forall shuf, (forall p k l, Permutation (shuf p k l) l) ->
  (groups < 2 ^ 53)%Z -> tests = 1%Z \/ tests = (groups - 1)%Z ->
  exists ss paths, split c n = Ok ss /\ cv_paths c n shuf = Ok paths /\
    length paths = choose (Z.to_nat groups - 1) (Z.to_nat tests - 1) /\
    (* each path has exactly one prediction for every sample *)
    (forall path, In path paths -> Permutation (map snd (path_predictions path)) (seq 0 n)) /\
    (* no prediction is used twice, and each is the out-of-sample prediction of some split *)
    NoDup (flat_map path_predictions paths) /\
    (forall j i, In (j, i) (flat_map path_predictions paths) <->
       exists train test, nth_error ss j = Some (train, test) /\ In i test).
Proof. exact c11_ok. Qed.
Print Assumptions C11_paths_partial.

(** All other accepted parameters fail, whatever the data and the shuffles. *)
Theorem C11_paths_refuted : forall groups tests pred ev emb c n,
  make_cv groups tests (Some pred) (Some ev) emb = Ok c ->
  (groups <= Z.of_nat n)%Z -> length pred = n -> length ev = n -> non_decreasing pred ->
  forall shuf, (forall p k l, Permutation (shuf p k l) l) ->
  (Z.of_nat (choose (Z.to_nat groups) (Z.to_nat tests)) < 2 ^ 53)%Z ->
  (2 <= tests <= groups - 2)%Z ->
  cv_paths c n shuf = Err IndexError \/ cv_paths c n shuf = Err OverflowError.
Proof. exact c11_fail. Qed.
Print Assumptions C11_paths_refuted.

Example C11_case_fails : cv_paths (ex_cv 0) 12 (fun _ _ l => l) = Err IndexError.
Proof. vm_compute. reflexivity. Qed.
Definition ex_cv_2 : cv :=
  {| n_splits := 3; n_groups := 3; n_test_splits := 2; pred_times := ex_pred; eval_times := ex_eval; embargo_td := 0 |}.
Example C11_case_works : make_cv 3 2 (Some ex_pred) (Some ex_eval) 0 = Ok ex_cv_2 /\
  option_map (@length _) (match cv_paths ex_cv_2 12 (fun _ _ l => rev l) with Ok p => Some p | Err _ => None end) = Some 2.
Proof. split; vm_compute; reflexivity. Qed.
