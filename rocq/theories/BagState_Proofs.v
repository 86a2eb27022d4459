(** Histories of the bagging classifier. *)
From Verif Require Import Prelude PreludeFacts Num Boot_Model Bag_Model Bag_Spec Bag_Proofs2 BagState_Model BagState_Spec.

Section Proofs.
  Context {num gen est0 model : Type}.
  Variables (np : numpy gen) (est : estimator num gen est0 model).
  Notation fit := (fit num gen est0 model np est).
  Notation fit_again := (fit_again num gen est0 model np est).
  Notation perform := (perform num gen est0 model np est).

  (** Mapping and matrix, if there is one, are those of the parameters. *)
  Definition current (c : classifier model) : Prop :=
    exists mi, get_ind_matrix (samples_info_sets (c_params _ c)) (price_bars (c_params _ c)) = Ok mi /\
      c_mapping _ c = index_mapping (samples_info_sets (c_params _ c)) (ncols (fst mi)) /\ (c_cached _ c = None \/ c_cached _ c = Some (fst mi)).
  Lemma current_new p c : new_classifier model p = Ok c -> current c /\ c_params _ c = p /\ c_fitted _ c = fresh.
  Proof.
    intros H. unfold new_classifier in H. destruct (get_ind_matrix _ _) as [mi|e] eqn:E; [|discriminate]. cbn [bind] in H. injection H as <-.
    split; [|split; reflexivity]. exists mi. cbn. auto.
  Qed.
  Lemma current_ind c : current c -> exists mi, get_ind_matrix (samples_info_sets (c_params _ c)) (price_bars (c_params _ c)) = Ok mi /\
    c_mapping _ c = index_mapping (samples_info_sets (c_params _ c)) (ncols (fst mi)) /\ ind_mat _ c = Ok (fst mi).
  Proof.
    intros (mi & E & M & C). exists mi. split; [exact E|]. split; [exact M|]. unfold ind_mat. destruct C as [->| ->]; [now rewrite E|reflexivity].
  Qed.
  Lemma current_fit c jobs sched d h : current c -> all_fitted (fit_again c jobs sched d h) = visible (fit (c_params _ c) jobs sched d (c_fitted _ c) h) /\
    forall h' c', fit_again c jobs sched d h = Ok (h', c') -> current c' /\ c_params _ c' = c_params _ c.
  Proof.
    intros H. destruct (current_ind c H) as (mi & E & M & I). unfold all_fitted, fit_again, Bag_Model.fit. rewrite E. cbn [bind]. rewrite I, M. clear H.
    destruct (fit_with _ _ _ _ _ _ _ _ _ _ _ _ _ _) as [[h1 a]|e]; cbn [bind visible fst snd c_fitted]; (split; [reflexivity|]); intros h' c' X; [|discriminate].
    injection X as <- <-. split; [|reflexivity]. exists mi. cbn [c_params c_mapping c_cached]. split; [exact E|]. split; [reflexivity|].
    destruct (nothing_to_add _ c); auto.
  Qed.
  Lemma current_history events : forall s s' p, foldM perform s events = Ok s' -> current (snd s) ->
    samples_info_sets (c_params _ (snd s)) = samples_info_sets p -> price_bars (c_params _ (snd s)) = price_bars p -> leaves_spans p events ->
    current (snd s') /\ samples_info_sets (c_params _ (snd s')) = samples_info_sets p /\ price_bars (c_params _ (snd s')) = price_bars p.
  Proof.
    induction events as [|e r IH]; intros s s' p H C S B L; cbn [foldM] in H; [injection H as <-; auto|].
    destruct (perform s e) as [s1|x] eqn:E; [|discriminate]. cbn [bind] in H. destruct e as [q|jobs sched d]; cbn [perform BagState_Model.perform] in E.
    - injection E as <-. destruct (L q) as [L1 L2]; [now left|]. apply (IH _ _ p H); cbn [snd set_parameters c_params]; auto.
      + destruct C as (mi & E & M & X). exists mi. cbn [set_parameters c_params c_mapping c_cached]. rewrite L1, L2. rewrite S, B in E. rewrite S in M. auto.
      + intros q' I. apply L. now right.
    - destruct s1 as [h1 c1]. destruct (proj2 (current_fit _ jobs sched d (fst s) C) _ _ E) as [C1 P1].
      apply (IH _ _ p H); cbn [snd]; rewrite ?P1; auto. intros q' I. apply L. now right.
  Qed.

  Lemma as_constructed p c events h h1 c1 jobs sched d : new_classifier model p = Ok c -> leaves_spans p events ->
    history num gen est0 model np est (h, c) events = Ok (h1, c1) ->
    all_fitted (fit_again c1 jobs sched d h1) = visible (fit (c_params _ c1) jobs sched d (c_fitted _ c1) h1).
  Proof.
    intros H L R. destruct (current_new _ _ H) as (C & P & _). unfold history in R.
    destruct (current_history events _ _ p R C) as (C1 & _); cbn [snd]; rewrite ?P; auto. exact (proj1 (current_fit _ jobs sched d h1 C1)).
  Qed.

  (** Without warm start the history leaves no trace. *)
  Lemma pure_self p d self self' h : warm_start p = false ->
    match pure_fit np est p d self h, pure_fit np est p d self' h with
    | Ok a, Ok b => ensemble _ a = ensemble _ b /\ n_classes _ a = n_classes _ b /\ (oob_score p = true -> oob _ a = oob _ b)
    | Err e, Err e' => e = e'
    | _, _ => False
    end.
  Proof.
    intros W. unfold pure_fit. assert (E : prepare p d self h = prepare p d self' h) by (unfold prepare; now rewrite W). rewrite <- E.
    destruct (prepare p d self h) as [[[[j nc] old] k]|e] eqn:Ep; cbn [bind]; [|reflexivity].
    destruct (Nat.eqb_spec k 0) as [->|Nk].
    - exfalso. unfold prepare in Ep. cbv zeta in Ep. rewrite W in Ep. cbn [andb raise_if bind length Z.of_nat] in Ep.
      destruct (get_ind_matrix _ _) as [mi|e]; cbn [bind] in Ep; [|discriminate].
      destruct (raise_if (negb (forallb _ (d_index _ d))) AssertionError) as [[]|e]; cbn [bind] in Ep; [|discriminate].
      destruct (raise_if (_ || _ || _) ValueError) as [[]|e]; cbn [bind] in Ep; [|discriminate].
      destruct (match d_weight _ d with Some a => _ | None => Ok tt end) as [[]|e]; cbn [bind] in Ep; [|discriminate].
      destruct (validate_y (d_labels _ d)) as [classes y].
      destruct (Z.leb_spec (n_estimators p) 0); cbn [raise_if bind] in Ep; [discriminate|].
      destruct (check_max_samples _ _) as [ms|e]; cbn [bind] in Ep; [|discriminate].
      destruct (check_max_features _ _) as [mf|e]; cbn [bind] in Ep; [|discriminate].
      destruct (n_estimators p - 0 <? 0)%Z; cbn [raise_if bind] in Ep; [discriminate|]. injection Ep as _ _ _ K. lia.
    - destruct (do _ <- _ ;; mapM _ _) as [new|e]; cbn [bind]; [|reflexivity].
      destruct (oob_score p); cbn [bind].
      + destruct (set_oob_score _ _ _ _ _ _ _ _ _) as [s|e]; cbn [bind ensemble n_classes oob]; auto.
      + split; [reflexivity|]. split; [reflexivity|]. discriminate.
  Qed.
  Lemma no_trace p c events h h1 c1 jobs sched d : 0 < jobs -> new_classifier model p = Ok c -> leaves_spans p events ->
    history num gen est0 model np est (h, c) events = Ok (h1, c1) -> warm_start (c_params _ c1) = false ->
    exists c2, new_classifier model (c_params _ c1) = Ok c2 /\
      trained_ensemble (fit_again c1 jobs sched d h1) = trained_ensemble (fit_again c2 jobs sched d h1) /\
      (oob_score (c_params _ c1) = true -> all_fitted (fit_again c1 jobs sched d h1) = all_fitted (fit_again c2 jobs sched d h1)).
  Proof.
    intros J H L R W. destruct (current_new _ _ H) as (C & P & _). unfold history in R.
    destruct (current_history events _ _ p R C) as (C1 & _); cbn [snd]; rewrite ?P; auto.
    destruct (current_ind _ C1) as (mi & E & _ & _).
    assert (N : exists c2, new_classifier model (c_params _ c1) = Ok c2) by (unfold new_classifier; cbn [snd] in E; rewrite E; cbn [bind]; eauto).
    destruct N as (c2 & N). exists c2. split; [exact N|]. destruct (current_new _ _ N) as (C2 & P2 & _).
    pose proof (proj1 (current_fit _ jobs sched d h1 C1)) as F1. pose proof (proj1 (current_fit _ jobs sched d h1 C2)) as F2. cbn [snd] in F1.
    rewrite fit_visible in F1, F2 by exact J. rewrite P2 in F2.
    pose proof (pure_self (c_params _ c1) d (c_fitted _ c1) (c_fitted _ c2) h1 W) as S. rewrite <- F1, <- F2 in S. clear F1 F2.
    destruct (fit_again c1 jobs sched d h1) as [[h3 c3]|e]; destruct (fit_again c2 jobs sched d h1) as [[h4 c4]|e'];
      cbn [all_fitted trained_ensemble bind snd] in *; try contradiction.
    - destruct S as (S1 & S2 & S3). rewrite S1, S2. split; [reflexivity|]. intros O. specialize (S3 O).
      destruct (c_fitted _ c3), (c_fitted _ c4). cbn in *. congruence.
    - subst. split; [reflexivity|]. intros _. reflexivity.
  Qed.

  (** New spans and bars are not seen by the first fit. *)
  Lemma first_fit_stale p c q jobs sched d h : new_classifier model p = Ok c ->
    all_fitted (fit_again (set_parameters model q c) jobs sched d h) = visible (fit (with_spans q p) jobs sched d fresh h).
  Proof.
    intros H. unfold new_classifier in H. destruct (get_ind_matrix (samples_info_sets p) (price_bars p)) as [mi|e] eqn:E; [|discriminate]. cbn [bind] in H. injection H as <-.
    unfold all_fitted, fit_again, Bag_Model.fit. cbn [with_spans samples_info_sets price_bars]. rewrite E. cbn [bind set_parameters c_params c_cached c_mapping c_fitted ind_mat].
    change (fit_with num gen est0 model np est (index_mapping (samples_info_sets p) (ncols (fst mi))) (Ok (fst mi)) (with_spans q p) jobs sched d fresh h)
      with (fit_with num gen est0 model np est (index_mapping (samples_info_sets p) (ncols (fst mi))) (Ok (fst mi)) q jobs sched d fresh h).
    unfold ind_mat. cbn [c_cached c_params].
    change {| ensemble := None; n_classes := 0; oob := None |} with (@fresh model).
    destruct (fit_with _ _ _ _ _ _ _ _ _ _ _ _ _ _) as [[h1 a]|e]; reflexivity.
  Qed.
End Proofs.
