(** C86: the frames of the combinatorial backtest. *)
From Coq Require Import String Sorting.Permutation QArith.
From Verif Require Import Prelude PreludeFacts Num Series Pipe_Model Pipe_Spec CV_Spec CV_Model CV_Props Paths_Model Paths_Spec Paths_Proofs Paths_Proofs2 Paths_Proofs3.
Local Open Scope nat_scope.

(** Every row of every path is an out-of-sample prediction: it was made, for the sample of that time, by the pipeline as it was
    after fitting on the training rows of a split that tests this sample, together with the largest of its probabilities and
    the labels of that time. For one test group or all groups but one (C11), any pipeline and any shuffles. *)
Theorem C86_rows : forall {S : Type} groups tests pred ev emb c (p : signal_pipeline Q S) st0 (X y : frame Q) name label order,
  make_cv groups tests (Some pred) (Some ev) emb = Ok c ->
  (groups <= Z.of_nat (List.length (rows X)))%Z -> List.length pred = List.length (rows X) -> List.length ev = List.length (rows X) -> non_decreasing pred ->
  usable p -> List.length (rows y) = List.length (rows X) -> NoDup (columns y) -> nth_error (columns y) label = Some name -> shuffles order ->
  (groups < 2 ^ 53)%Z -> tests = 1%Z \/ tests = (groups - 1)%Z ->
  exists ss frames, split c (List.length (rows X)) = Ok ss /\ path_frames c p st0 X y name order = Ok frames /\
    List.length frames = choose (Z.to_nat groups - 1) (Z.to_nat tests - 1) /\
    forall f t prediction largest cells, In f frames -> In (t, (prediction, largest, cells)) f ->
      exists i j s train test block probabilities, nth_error (index X) i = Some t /\
        nth_error ss j = Some (train, test) /\ In i test /\ ~ In i train /\ incl block test /\
        fitted p X y label ss st0 j s /\ says p s X block i prediction probabilities /\ is_max probabilities largest /\ labels_at y t cells.
Proof. intros S. exact (@c86_rows S). Qed.
Print Assumptions C86_rows.

(** When the labels have distinct times: one can say of each row of each path which split predicted it for which sample. Each path
    has every sample once, no prediction is in two places, and every out-of-sample prediction of every split is in some path. *)
Theorem C86_no_prediction_twice : forall {S : Type} groups tests pred ev emb c (p : signal_pipeline Q S) st0 (X y : frame Q) name label order,
  make_cv groups tests (Some pred) (Some ev) emb = Ok c ->
  (groups <= Z.of_nat (List.length (rows X)))%Z -> List.length pred = List.length (rows X) -> List.length ev = List.length (rows X) -> non_decreasing pred ->
  usable p -> List.length (rows y) = List.length (rows X) -> NoDup (columns y) -> nth_error (columns y) label = Some name -> shuffles order ->
  (groups < 2 ^ 53)%Z -> tests = 1%Z \/ tests = (groups - 1)%Z -> NoDup (index y) ->
  exists ss frames origins, split c (List.length (rows X)) = Ok ss /\ path_frames c p st0 X y name order = Ok frames /\
    Forall2 (Forall2 (fun ji row => exists s train test block probabilities,
      nth_error ss (fst ji) = Some (train, test) /\ In (snd ji) test /\ ~ In (snd ji) train /\ incl block test /\ fitted p X y label ss st0 (fst ji) s /\
      nth_error (index X) (snd ji) = Some (fst row) /\ says p s X block (snd ji) (fst (fst (snd row))) probabilities /\
      is_max probabilities (snd (fst (snd row))) /\ labels_at y (fst row) (snd (snd row)))) origins frames /\
    (forall path, In path origins -> Permutation (map snd path) (seq 0 (List.length (rows X)))) /\
    NoDup (concat origins) /\
    (forall j i, In (j, i) (concat origins) <-> exists train test, nth_error ss j = Some (train, test) /\ In i test).
Proof. intros S. exact (@c86_origins S). Qed.
Print Assumptions C86_no_prediction_twice.

(** With distinct times, every path has each sample exactly once, with its own labels. *)
Theorem C86_each_sample_once : forall {S : Type} groups tests pred ev emb c (p : signal_pipeline Q S) st0 (X y : frame Q) name label order,
  make_cv groups tests (Some pred) (Some ev) emb = Ok c ->
  (groups <= Z.of_nat (List.length (rows X)))%Z -> List.length pred = List.length (rows X) -> List.length ev = List.length (rows X) -> non_decreasing pred ->
  usable p -> List.length (rows y) = List.length (rows X) -> NoDup (columns y) -> nth_error (columns y) label = Some name -> shuffles order ->
  (groups < 2 ^ 53)%Z -> tests = 1%Z \/ tests = (groups - 1)%Z -> index y = index X -> NoDup (index X) ->
  exists frames, path_frames c p st0 X y name order = Ok frames /\ List.length frames = choose (Z.to_nat groups - 1) (Z.to_nat tests - 1) /\
    forall f, In f frames -> Permutation (map fst f) (index X) /\
      forall t values, In (t, values) f -> exists i, nth_error (rows y) i = Some (t, snd values) /\ nth_error (index X) i = Some t.
Proof. intros S. exact (@c86_once S). Qed.
Print Assumptions C86_each_sample_once.

(** A time that occurs m times in the data occurs m * m times in every path ... *)
Theorem C86_repeated_times : forall {S : Type} groups tests pred ev emb c (p : signal_pipeline Q S) st0 (X y : frame Q) name label order,
  make_cv groups tests (Some pred) (Some ev) emb = Ok c ->
  (groups <= Z.of_nat (List.length (rows X)))%Z -> List.length pred = List.length (rows X) -> List.length ev = List.length (rows X) -> non_decreasing pred ->
  usable p -> List.length (rows y) = List.length (rows X) -> NoDup (columns y) -> nth_error (columns y) label = Some name -> shuffles order ->
  (groups < 2 ^ 53)%Z -> tests = 1%Z \/ tests = (groups - 1)%Z -> index y = index X ->
  exists frames, path_frames c p st0 X y name order = Ok frames /\ List.length frames = choose (Z.to_nat groups - 1) (Z.to_nat tests - 1) /\
    forall f t, In f frames -> occurrences t (map fst f) = occurrences t (index X) * occurrences t (index X).
Proof. intros S. exact (@c86_squares S). Qed.
Print Assumptions C86_repeated_times.

(** ... so with repeated times no path has each sample once. *)
Theorem C86_repeated_times_too_many_rows : forall {S : Type} groups tests pred ev emb c (p : signal_pipeline Q S) st0 (X y : frame Q) name label order,
  make_cv groups tests (Some pred) (Some ev) emb = Ok c ->
  (groups <= Z.of_nat (List.length (rows X)))%Z -> List.length pred = List.length (rows X) -> List.length ev = List.length (rows X) -> non_decreasing pred ->
  usable p -> List.length (rows y) = List.length (rows X) -> NoDup (columns y) -> nth_error (columns y) label = Some name -> shuffles order ->
  (groups < 2 ^ 53)%Z -> tests = 1%Z \/ tests = (groups - 1)%Z -> index y = index X -> ~ NoDup (index X) ->
  exists frames, path_frames c p st0 X y name order = Ok frames /\ List.length frames = choose (Z.to_nat groups - 1) (Z.to_nat tests - 1) /\
    forall f, In f frames -> ~ Permutation (map fst f) (index X).
Proof. intros S. exact (@c86_repeated S). Qed.
Print Assumptions C86_repeated_times_too_many_rows.

(** Every other number of test groups fails, after all the fitting. *)
Theorem C86_other_parameters_fail : forall {S : Type} groups tests pred ev emb c (p : signal_pipeline Q S) st0 (X y : frame Q) name label order,
  make_cv groups tests (Some pred) (Some ev) emb = Ok c ->
  (groups <= Z.of_nat (List.length (rows X)))%Z -> List.length pred = List.length (rows X) -> List.length ev = List.length (rows X) -> non_decreasing pred ->
  usable p -> List.length (rows y) = List.length (rows X) -> NoDup (columns y) -> nth_error (columns y) label = Some name -> shuffles order ->
  (Z.of_nat (choose (Z.to_nat groups) (Z.to_nat tests)) < 2 ^ 53)%Z -> (2 <= tests <= groups - 2)%Z ->
  path_frames c p st0 X y name order = Err IndexError \/ path_frames c p st0 X y name order = Err OverflowError.
Proof. intros S. exact (@frames_fail S). Qed.
Print Assumptions C86_other_parameters_fail.

(** Without the label column nothing is fitted. *)
Theorem C86_no_label_column : forall {S : Type} c (p : signal_pipeline Q S) st0 (X y : frame Q) name order,
  ~ In name (columns y) -> path_frames c p st0 X y name order = Err KeyError.
Proof. intros S. exact (@frames_no_label S). Qed.
Print Assumptions C86_no_label_column.

(** A pipeline that predicts the number of rows that it was fitted on. *)
Definition ex_sp : signal_pipeline Q nat := {|
  sp_fit := fun _ _ labels => Ok (List.length labels);
  sp_predict := fun s values => Ok (map (fun _ => Fin (inject_Z (Z.of_nat s))) values);
  sp_proba := fun _ values => Ok (map (fun _ => [Fin (1 # 4); Fin (3 # 4)]) values) |}.
Definition ex_frame (times : list Z) : frame Q := {| columns := ["label"]%string; rows := map (fun t => (t, [Fin (inject_Z t)])) times |}.
Example C86_case_usable : usable ex_sp /\ shuffles (fun _ _ m => rev (seq 0 m)).
Proof.
  split; [split|].
  - intros s v l _. eexists; reflexivity.
  - intros s v. do 2 eexists. split; [reflexivity|]. split; [now rewrite map_length|]. split; [reflexivity|]. split; [now rewrite map_length|].
    apply Forall_forall. intros r Hr. apply in_map_iff in Hr. destruct Hr as (_ & <- & _). discriminate.
  - intros i k m. symmetry. apply Permutation_rev.
Qed.
(* two paths of the twelve samples; with one time twice, fourteen rows *)
Example C86_case : match path_frames ex_cv_2 ex_sp 0 (ex_frame ex_pred) (ex_frame ex_pred) "label"%string (fun _ _ m => rev (seq 0 m)) with
  | Ok fs => map (@List.length _) fs = [12; 12] /\ map (fun r => fst (fst (snd r))) (firstn 5 (hd [] fs)) <> [] | Err _ => False end /\ NoDup ex_pred.
Proof.
  split; [vm_compute; split; [reflexivity|discriminate]|].
  repeat constructor; cbn; intuition discriminate.
Qed.
Definition ex_twice : list Z := match ex_pred with a :: b :: r => a :: a :: r | l => l end.
Example C86_case_twice : match path_frames ex_cv_2 ex_sp 0 (ex_frame ex_twice) (ex_frame ex_twice) "label"%string (fun _ _ m => seq 0 m) with
  | Ok fs => map (@List.length _) fs = [14; 14] | Err _ => False end.
Proof. vm_compute. reflexivity. Qed.
