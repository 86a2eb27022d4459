(** Proofs about the frames of the combinatorial backtest: which prediction each row is. *)
From Coq Require Import String Sorting.Permutation QArith.
From Verif Require Import Prelude PreludeFacts Num Series Pipe_Model Pipe_Spec CV_Spec CV_Model CV_Proofs3 Paths_Model Paths_Spec Paths_Proofs Paths_Proofs2.
Local Open Scope nat_scope.

Lemma Forall2_by_nth {U V} (R : U -> V -> Prop) l1 : forall l2, List.length l1 = List.length l2 ->
  (forall q x z, nth_error l1 q = Some x -> nth_error l2 q = Some z -> R x z) -> Forall2 R l1 l2.
Proof.
  induction l1 as [|x l1 IH]; intros [|z l2] HL H; try discriminate; [constructor|]. constructor; [apply (H 0); reflexivity|].
  apply IH; [now inversion HL|]. intros q. exact (H (Datatypes.S q)).
Qed.

Section Rows.
  Context {S : Type}.
  Variables (p : signal_pipeline Q S) (X y : frame Q) (label : nat) (splits : list (list nat * list nat)) (st0 : S).

  Definition row_of_sample (s : S) (block : list nat) (i : nat) (row : path_row Q) : Prop :=
    exists probs, nth_error (index X) i = Some (fst row) /\ says p s X block i (fst (fst (snd row))) probs /\ row_max probs = Ok (snd (fst (snd row))) /\
      labels_at y (fst row) (snd (snd row)).

  Lemma merge_left_single l : NoDup (index y) -> Forall2 (fun (r : Z * (ext Q * ext Q)) (row : path_row Q) => fst row = fst r /\ fst (snd row) = snd r /\ labels_at y (fst row) (snd (snd row))) l (merge_left l y).
  Proof.
    intros Hd. induction l as [|[t v] l IH]; [constructor|]. unfold merge_left in IH |- *. cbn [flat_map fst snd].
    pose proof (found_length y t) as HL. pose proof (proj1 (NoDup_count_occ Z.eq_dec (index y)) Hd t) as H1.
    destruct (filter _ _) as [|e [|e' found]] eqn:E; cbn [List.length] in HL; [| |lia]; cbn [app map]; constructor; try exact IH; cbn; (split; [reflexivity|split; [reflexivity|]]).
    - right. split; [now apply found_none|reflexivity].
    - left. assert (Hin : In e [e]) by now left. rewrite <- E in Hin. apply filter_In in Hin. destruct Hin as (Hin & Ht). apply Z.eqb_eq in Ht. rewrite <- Ht. now destruct e.
  Qed.

  Lemma sub_frame_rows s part fr : NoDup (index y) -> sub_frame p s X y part = Ok fr -> Forall2 (row_of_sample s part) part fr.
  Proof.
    intros Hd. unfold sub_frame. destruct (mapM (get (index X)) part) as [times|] eqn:Et; cbn [bind]; [|discriminate].
    destruct (iloc X part) as [values|] eqn:Ev; cbn [bind]; [|discriminate].
    destruct (sp_predict p s values) as [predictions|] eqn:Ep; cbn [bind]; [|discriminate].
    unfold make_series. destruct (Nat.eqb_spec (List.length times) (List.length predictions)) as [L1|L1]; cbn [bind]; [|discriminate].
    destruct (sp_proba p s values) as [proba|] eqn:Eq; cbn [bind]; [|discriminate].
    destruct (mapM row_max proba) as [largest|] eqn:El; cbn [bind]; [|discriminate].
    destruct (Nat.eqb_spec (List.length largest) (List.length times)) as [L2|L2]; cbn [negb raise_if bind]; [|discriminate].
    intros E; inversion E; subst fr. clear E. set (column := map _ _).
    pose proof (merge_left_single column Hd) as HM. pose proof (mapM_length _ _ _ Et) as Lt.
    assert (LC : List.length column = List.length part) by (unfold column; rewrite map_length, !combine_length; lia).
    apply Forall2_by_nth; [rewrite <- (Forall2_len _ _ _ HM); now symmetry|]. intros q i row Hi Hrow.
    assert (Hq : exists r, nth_error column q = Some r).
    { destruct (nth_error column q) as [r|] eqn:Er; [now exists r|]. apply nth_error_None in Er. assert (q < List.length part) by (apply nth_error_Some; congruence). lia. }
    destruct Hq as (r & Hr). destruct (Forall2_nth _ _ _ _ _ HM Hr) as (row' & Hrow' & F1 & F2 & F3). rewrite Hrow in Hrow'. inversion Hrow'; subst row'.
    unfold column in Hr. rewrite nth_error_map in Hr. destruct (nth_error (combine (combine times predictions) largest) q) as [[[t pr] mp]|] eqn:Ec; cbn in Hr; [|discriminate].
    inversion Hr; subst r. cbn in F1, F2.
    assert (G : nth_error times q = Some t /\ nth_error predictions q = Some pr /\ nth_error largest q = Some mp).
    { clear -Ec. revert predictions largest q Ec. induction times as [|a times IH]; intros [|b predictions] [|d largest] q Hq; cbn in Hq; try (destruct q; discriminate).
      destruct q as [|q]; cbn in *; [inversion Hq; auto|now apply IH]. }
    destruct G as (G1 & G2 & G3).
    destruct (mapM_nth _ _ _ _ _ Et Hi) as (t' & Ht & Hg). rewrite G1 in Ht. inversion Ht; subst t'. apply get_Ok in Hg.
    assert (H2 : exists probs, nth_error proba q = Some probs /\ row_max probs = Ok mp).
    { pose proof (mapM_length _ _ _ El) as Ll. destruct (nth_error proba q) as [probs|] eqn:Ei.
      - destruct (mapM_nth _ _ _ _ _ El Ei) as (m' & Hm & Hg'). rewrite G3 in Hm. inversion Hm; subst m'. exists probs. auto.
      - apply nth_error_None in Ei. assert (q < List.length largest) by (apply nth_error_Some; congruence). lia. }
    destruct H2 as (probs & Hp & Hm). exists probs. split; [now rewrite F1|]. rewrite F2. cbn [fst snd]. split; [|split; [exact Hm|exact F3]].
    exists values, predictions, proba, q. auto 7.
  Qed.

  (** A row of a path is the prediction of split j for sample i. *)
  Definition prediction_of (ji : nat * nat) (row : path_row Q) : Prop :=
    exists s train test block probs, nth_error splits (fst ji) = Some (train, test) /\ In (snd ji) test /\ incl block test /\ fitted p X y label splits st0 (fst ji) s /\
      nth_error (index X) (snd ji) = Some (fst row) /\ says p s X block (snd ji) (fst (fst (snd row))) probs /\ row_max probs = Ok (snd (fst (snd row))) /\
      labels_at y (fst row) (snd (snd row)).

  Lemma path_origins sts f : NoDup (index y) -> path_of p X y label splits st0 sts f -> Forall2 prediction_of (path_predictions sts) f.
  Proof.
    intros Hd (frs & HF & ->). induction HF as [|x fr sts frs (s & Hs & Esub & train & test & Hk & Hincl) HF IH]; [constructor|].
    change (concat (fr :: frs)) with (fr ++ concat frs).
    change (path_predictions (x :: sts)) with (map (pair (st_split x)) (st_rows x) ++ path_predictions sts). apply Forall2_app; [|exact IH].
    pose proof (sub_frame_rows _ _ _ Hd Esub) as HR.
    apply Forall2_by_nth; [rewrite map_length; eapply Forall2_len; eauto|]. intros q ji row Hji Hrow. rewrite nth_error_map in Hji.
    destruct (nth_error (st_rows x) q) as [i|] eqn:Ei; cbn in Hji; [|discriminate]. inversion Hji; subst ji.
    destruct (Forall2_nth _ _ _ _ _ HR Ei) as (row' & Hrow' & probs & R1 & R2 & R3 & R4). rewrite Hrow in Hrow'. inversion Hrow'; subst row'.
    exists s, train, test, (st_rows x), probs. cbn [fst snd]. split; [exact Hk|]. split; [apply Hincl; now apply nth_error_In in Ei|]. auto 8.
  Qed.
End Rows.

Section C86.
  Context {S : Type}.
  Variables (groups tests : Z) (pred : list Z) (ev : list (option Z)) (emb : Z) (c : cv).
  Variables (p : signal_pipeline Q S) (st0 : S) (X y : frame Q) (name : string) (label : nat) (order : nat -> nat -> nat -> list nat).
  Notation n := (List.length (rows X)).

  Lemma c86_origins :
    make_cv groups tests (Some pred) (Some ev) emb = Ok c ->
    (groups <= Z.of_nat n)%Z -> List.length pred = n -> List.length ev = n -> non_decreasing pred ->
    usable p -> List.length (rows y) = n -> NoDup (columns y) -> nth_error (columns y) label = Some name -> shuffles order ->
    (groups < 2 ^ 53)%Z -> tests = 1%Z \/ tests = (groups - 1)%Z -> NoDup (index y) ->
    exists ss frames origins, split c n = Ok ss /\ path_frames c p st0 X y name order = Ok frames /\
      Forall2 (Forall2 (fun ji row => exists s train test block probabilities,
        nth_error ss (fst ji) = Some (train, test) /\ In (snd ji) test /\ ~ In (snd ji) train /\ incl block test /\ fitted p X y label ss st0 (fst ji) s /\
        nth_error (index X) (snd ji) = Some (fst row) /\ says p s X block (snd ji) (fst (fst (snd row))) probabilities /\
        is_max probabilities (snd (fst (snd row))) /\ labels_at y (fst row) (snd (snd row)))) origins frames /\
      (forall path, In path origins -> Permutation (map snd path) (seq 0 n)) /\
      NoDup (concat origins) /\
      (forall j i, In (j, i) (concat origins) <-> exists train test, nth_error ss j = Some (train, test) /\ In i test).
  Proof.
    intros Hmk Hn Hp He Hs Huse Hy Hc Hname Hord Hsm Hk Hd.
    destruct (c11_ok groups tests pred ev emb c n Hmk Hn Hp He Hs (by_position order) (by_position_perm order Hord) Hsm Hk) as (ss & paths & E1 & E2 & L & HP & HN & HI).
    assert (HR : exists ss, split c n = Ok ss /\ (forall train test, In (train, test) ss -> (forall i, In i train -> i < n /\ ~ In i test) /\ (forall i, In i test -> i < n)) /\
      ((exists e, cv_paths c n (by_position order) = Err e /\ path_frames c p st0 X y name order = Err e) \/
       (exists paths frames, cv_paths c n (by_position order) = Ok paths /\ path_frames c p st0 X y name order = Ok frames /\ Forall2 (path_of p X y label ss st0) paths frames)))
      by (eapply frames_rel; eauto).
    destruct HR as (ss' & E1' & Hr & HF). rewrite E1 in E1'. inversion E1'; subst ss'.
    destruct HF as [(e & E3 & _)|(paths' & frames & E3 & E4 & HF)]; rewrite E2 in E3; [discriminate|]. inversion E3; subst paths'.
    exists ss, frames, (map path_predictions paths). split; [exact E1|]. split; [exact E4|]. split.
    { clear -HF Hd Hr. induction HF as [|sts f paths frames Hof HF IH]; [constructor|]. cbn [map]. constructor; [|exact IH].
      pose proof (path_origins p X y label ss st0 sts f Hd Hof) as HO. clear -HO Hr.
      induction HO as [|ji row l f Hj HO IH]; [constructor|]. constructor; [|exact IH].
      destruct Hj as (s & train & test & block & probs & H1 & H2 & H3 & H4 & H5 & H6 & H7 & H8). exists s, train, test, block, probs.
      split; [exact H1|]. split; [exact H2|]. split; [intros Hi; destruct (Hr train test (nth_error_In _ _ H1)) as (Hr' & _); now apply Hr' in Hi|].
      split; [exact H3|]. split; [exact H4|]. split; [exact H5|]. split; [exact H6|]. split; [now apply row_max_is_max|exact H8]. }
    split; [intros path Hpath; apply in_map_iff in Hpath; destruct Hpath as (sts & <- & Hin); now apply HP|].
    rewrite <- flat_map_concat_map. auto.
  Qed.
End C86.
