(** Out-of-bag scoring when estimators may know fewer classes than the ensemble: C51, C52. *)
From Verif Require Import QSum QSumFacts Num Boot_Model Boot_Spec Bag_Model Bag_Spec Bag_Spec2 Bag_Proofs7 Bag_Props.
From Coq Require Import Lqa.
Open Scope nat_scope.

(** ** C51: out-of-bag decision *)

(** What is true without assuming that every estimator knows all classes. If fit succeeds, each estimator knows all of them or one,
    and the decision is the pooled one: an estimator that knows a single class is counted once for every class. *)
Theorem C51_fewer_classes_partial : forall (num gen est0 model : Type) (np : numpy gen) (est : estimator num gen est0 model) proba f,
  predict_proba num gen est0 model est = Some proba -> by_rows proba f -> forall p jobs schedule (d : data num) self h h' a,
  0 < jobs -> fit num gen est0 model np est p jobs schedule d self h = Ok (h', a) -> oob_score p = true -> (forall m x, qsum (f m x) == 1)%Q ->
  exists ts decision score, ensemble model a = Some ts /\ oob model a = Some (decision, score) /\ length decision = length (d_rows num d) /\
    forall i x, nth_error (d_rows num d) i = Some x ->
      exists row l, nth_error decision i = Some row /\ opinions f ts i x l /\ Forall (all_or_one (n_classes model a)) l /\ pooled (n_classes model a) l row.
Proof. intros num gen est0 model np est proba f H1 H2 p jobs schedule d self h h' a H3 H4 H5 H6. eapply c51_fewer; eassumption. Qed.
Print Assumptions C51_fewer_classes_partial.

(** ** C52: what fit rejects *)

(** With out-of-bag scoring, fit proceeds exactly if each estimator leaves some sample out and knows all classes or one. *)
Theorem C52_out_of_bag_classes_partial : forall (num gen est0 model : Type) (np : numpy gen) (est : estimator num gen est0 model) proba f,
  predict_proba num gen est0 model est = Some proba -> by_rows proba f -> forall p jobs schedule (d : data num) self h samples m times,
  0 < jobs -> libraries_fine np est -> samples_info_sets p = complete samples ->
  get_ind_matrix (complete samples) (price_bars p) = Ok (m, times) -> NoDup (map fst samples) -> (0 < update_probs_every p)%Z ->
  length (d_index num d) = length (d_rows num d) -> Forall (fun row => length row = d_width num d) (d_rows num d) ->
  (d_weight num d <> None -> support_sample_weight num gen est0 model est = true) -> oob_score p = true -> acceptable p d self h -> (forall m, proba m [] = Err ValueError) ->
  exists h1 a1 ts, fit num gen est0 model np est (with_oob p false) jobs schedule d self h = Ok (h1, a1) /\ ensemble model a1 = Some ts /\
    (Forall (scorable f (n_classes model a1) (d_rows num d)) ts ->
       exists h' a, fit num gen est0 model np est p jobs schedule d self h = Ok (h', a) /\ ensemble model a = Some ts /\ n_classes model a = n_classes model a1) /\
    (~ Forall (scorable f (n_classes model a1) (d_rows num d)) ts -> fit num gen est0 model np est p jobs schedule d self h = Err ValueError).
Proof. intros num gen est0 model np est proba f H1 H2 p jobs schedule d self h samples m times. intros. eapply c52_oob_classes; eassumption. Qed.
Print Assumptions C52_out_of_bag_classes_partial.

(** Estimators that give each class they were trained on the same probability. *)
Definition ex_known (m : ex_model) (row : list Z) : list Q :=
  match nodup Nat.eq_dec (snd (fst m)) with [] => [1%Q] | l => map (fun _ => 1 / Qn (length l))%Q l end.
Definition ex_even : estimator Z nat nat ex_model := {|
  make := fun g => (g, S g); support_sample_weight := false;
  fit_weighted := fun e X y w => Ok (e, X, y, w); fit_plain := fun e X y => Ok (e, X, y, []);
  predict_proba := Some (fun m rows => match rows with [] => Err ValueError | _ => Ok (map (ex_known m) rows) end);
  predict := fun m rows => Ok (map (fun _ => 0) rows) |}.
Example ex_even_fine : libraries_fine ex_np ex_even.
Proof. destruct ex_libraries as (_ & _ & H). split; [intros; eexists; reflexivity|]. split; [intros; eexists; reflexivity|exact H]. Qed.
Example ex_even_rows : by_rows (fun m rows => match rows with [] => Err ValueError | _ => Ok (map (ex_known m) rows) end) ex_known /\ (forall m x, qsum (ex_known m x) == 1)%Q.
Proof.
  split; [intros m [|r rows] H; [congruence|reflexivity]|]. intros m x. unfold ex_known. destruct (nodup Nat.eq_dec (snd (fst m))) as [|c l]; [reflexivity|].
  rewrite qsum_map_const. field. apply Qn_neq0. cbn. lia.
Qed.

(** Three samples of three classes: each estimator draws two of them and so knows two classes, and fit fails although the parameters are
    acceptable and each estimator leaves a sample out. *)
Definition ex_three : data Z := {| d_index := [40; 10; 20]%Z; d_rows := [[1; 2]; [2; 3]; [3; 4]]%Z; d_width := 2; d_labels := [1; -1; 0]%Z; d_weight := None |}.
Theorem C51_two_of_three_refuted : exists (np : numpy nat) (est : estimator Z nat nat ex_model) p d h1 a1 ts,
  libraries_fine np est /\ oob_score p = true /\ acceptable p d (@fresh ex_model) [] /\
  fit Z nat nat ex_model np est (with_oob p false) 1 [] d fresh [] = Ok (h1, a1) /\ ensemble ex_model a1 = Some ts /\
  (forall t, In t ts -> exists i, i < length (d_rows Z d) /\ ~ In i (t_samples ex_model t)) /\
  fit Z nat nat ex_model np est p 1 [] d fresh [] = Err ValueError.
Proof.
  exists ex_np, ex_even, (ex_params 3 true false), ex_three. do 3 eexists. split; [exact ex_even_fine|]. split; [reflexivity|]. split; [|split; [vm_compute; reflexivity|split; [reflexivity|split]]].
  - split; [exists 2; split; [cbn; lia|reflexivity]|].
    split; [exists 1; split; [split; [reflexivity|discriminate]|]; exists 1; split; [split; [discriminate|reflexivity]|reflexivity]|].
    split; [cbn; intros [C _]; discriminate|]. split; [|split; [cbn; lia|split; [cbn; lia|split; [reflexivity|split; [discriminate|split; [reflexivity|discriminate]]]]]].
    intros t [<-|[<-|[<-|[]]]]; [exists (Some 50%Z)|exists (Some 30%Z)|exists (Some 25%Z)]; cbn; auto.
  - intros t [<-|[<-|[<-|[]]]]; [exists 2|exists 0|exists 1]; cbn; split; try lia; intuition discriminate.
  - vm_compute. reflexivity.
Qed.
Print Assumptions C51_two_of_three_refuted.

(** Two classes: fit succeeds, and the estimator that knows one class counts for both. *)
Example C51_fewer_case : match fit Z nat nat ex_model ex_np ex_even (ex_params 3 true false) 1 [] {| d_index := [40; 10; 20]%Z; d_rows := [[1; 2]; [2; 3]; [3; 4]]%Z; d_width := 2; d_labels := [1; -1; 1]%Z; d_weight := None |} fresh [] with
  | Ok (_, {| n_classes := nc; ensemble := Some ts; oob := Some (decision, _) |}) => nc = 2 /\ map (fun t => length (ex_known (t_model ex_model t) [])) ts = [2; 2; 1] /\
      map (map red) decision = [[Fin (1 # 2); Fin (1 # 2)]; [Fin (1 # 2); Fin (1 # 2)]; [Fin (1 # 2); Fin (1 # 2)]]%Q
  | _ => False
  end.
Proof. vm_compute. auto. Qed.
