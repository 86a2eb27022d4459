(** The bagging classifier under changes of its parameters: C95. *)
From Verif Require Import Prelude QSum Num Boot_Model Boot_Spec Bag_Model Bag_Spec Bag_Props BagState_Model BagState_Spec BagState_Proofs.
Open Scope nat_scope.

(** Whatever calls of fit and of set_params came before, as long as the label spans and the bars stay those of the constructor, fit
    does what fit of a classifier newly built with the current parameters does (and warm start continues from the current ensemble). *)
Theorem C95_bagging_history : forall (num gen est0 model : Type) (np : numpy gen) (est : estimator num gen est0 model) p c events h h1 c1 jobs schedule d,
  new_classifier model p = Ok c -> leaves_spans p events -> history num gen est0 model np est (h, c) events = Ok (h1, c1) ->
  all_fitted (fit_again num gen est0 model np est c1 jobs schedule d h1) =
  visible (fit num gen est0 model np est (c_params model c1) jobs schedule d (c_fitted model c1) h1).
Proof. intros. eapply as_constructed; eassumption. Qed.
Print Assumptions C95_bagging_history.
Theorem C95_bagging_no_trace : forall (num gen est0 model : Type) (np : numpy gen) (est : estimator num gen est0 model) p c events h h1 c1 jobs schedule d,
  0 < jobs -> new_classifier model p = Ok c -> leaves_spans p events -> history num gen est0 model np est (h, c) events = Ok (h1, c1) ->
  warm_start (c_params model c1) = false ->
  exists c2, new_classifier model (c_params model c1) = Ok c2 /\
    trained_ensemble (fit_again num gen est0 model np est c1 jobs schedule d h1) = trained_ensemble (fit_again num gen est0 model np est c2 jobs schedule d h1) /\
    (oob_score (c_params model c1) = true ->
     all_fitted (fit_again num gen est0 model np est c1 jobs schedule d h1) = all_fitted (fit_again num gen est0 model np est c2 jobs schedule d h1)).
Proof. intros. eapply no_trace; eassumption. Qed.
Print Assumptions C95_bagging_no_trace.

(** New spans and bars go unnoticed by the first fit, whatever they are. *)
Theorem C95_bagging_spans_ignored_refuted : forall (num gen est0 model : Type) (np : numpy gen) (est : estimator num gen est0 model) p c q jobs schedule d h,
  new_classifier model p = Ok c ->
  all_fitted (fit_again num gen est0 model np est (set_parameters model q c) jobs schedule d h) =
  visible (fit num gen est0 model np est (with_spans q p) jobs schedule d fresh h).
Proof. intros. eapply first_fit_stale; eassumption. Qed.
Print Assumptions C95_bagging_spans_ignored_refuted.

(** A generator that picks the most probable sample, the last of them if there are several. *)
Fixpoint ex_likeliest (i best : nat) (v : Q) (p : list Q) : nat := match p with [] => best | x :: r => if Qle_bool v x then ex_likeliest (S i) i x r else ex_likeliest (S i) best v r end.
Definition ex_greedy : numpy nat := {|
  new_state := Z.to_nat; next_int := fun g => (Z.of_nat (g * 7 + 3), S g);
  randint_below := fun g n k => (map (fun i => (g + i) mod n) (seq 0 k), S g); sample_without_replacement := fun g n k => (seq 0 k, S g);
  choices := fun g i p size => repeat (ex_likeliest 0 0 0 p) size |}.
Definition ex_again := fit_again Z nat nat ex_model ex_greedy ex_est.
Definition ex_spans (l : list (Z * Z)) (n : Z) : params := {|
  samples_info_sets := complete l; price_bars := [5; 10; 20; 25; 30; 60]%Z; n_estimators := n; max_samples := SInt 3; max_features := SFloat (Fin (1 # 2));
  bootstrap_features := true; oob_score := false; warm_start := false; random_state := 4; update_probs_every := 1 |}.
Definition ex_draws (r : result (heap * classifier ex_model)) : result (list (list nat)) :=
  do e <- trained_ensemble r ;; match fst e with Some ts => Ok (map (t_samples ex_model) ts) | None => Err ValueError end.
Definition ex_twice (l l' : list (Z * Z)) (n : Z) : list (result (list (list nat))) :=
  match new_classifier ex_model (ex_spans l n), new_classifier ex_model (ex_spans l' n) with
  | Ok c, Ok c' =>
      let first := ex_again (set_parameters _ (ex_spans l' n) c) 1 [] ex_data ex_heap in
      let second := do s <- first ;; ex_again (snd s) 1 [] ex_data (fst s) in
      [ex_draws first; ex_draws second; ex_draws (ex_again c' 1 [] ex_data ex_heap)]
  | _, _ => []
  end.
(** The same call of fit twice in a row: the second gives another ensemble although the seed is an integer. *)
Theorem C95_bagging_refuted : exists (p q : params) c h1 c1 h2 c2,
  new_classifier ex_model p = Ok c /\ ex_again (set_parameters ex_model q c) 1 [] ex_data ex_heap = Ok (h1, c1) /\ ex_again c1 1 [] ex_data h1 = Ok (h2, c2) /\
  option_map (map (t_samples ex_model)) (ensemble ex_model (c_fitted ex_model c1)) <> option_map (map (t_samples ex_model)) (ensemble ex_model (c_fitted ex_model c2)).
Proof.
  set (p := ex_spans [(10, 30); (20, 25); (40, 50)]%Z 1). set (q := ex_spans [(10, 20); (20, 60); (40, 60)]%Z 1). set (d (c : classifier ex_model) := option_map (map (t_samples ex_model)) (ensemble ex_model (c_fitted ex_model c))).
  assert (X : match new_classifier ex_model p with Ok c => match ex_again (set_parameters ex_model q c) 1 [] ex_data ex_heap with Ok (h1, c1) =>
    match ex_again c1 1 [] ex_data h1 with Ok (h2, c2) => d c1 = Some [[2; 0; 1]] /\ d c2 = Some [[2; 1; 0]] | _ => False end | _ => False end | _ => False end) by (vm_compute; split; reflexivity).
  revert X. clearbody p q. destruct (new_classifier ex_model p) as [c|e] eqn:E1; [|contradiction]. destruct (ex_again (set_parameters ex_model q c) 1 [] ex_data ex_heap) as [[h1 c1]|e] eqn:E2; [|contradiction].
  destruct (ex_again c1 1 [] ex_data h1) as [[h2 c2]|e] eqn:E3; [|contradiction]. intros [D1 D2]. exists p, q, c, h1, c1, h2, c2. split; [exact E1|]. split; [exact E2|]. split; [exact E3|]. change (d c1 <> d c2). rewrite D1, D2. discriminate.
Qed.
Print Assumptions C95_bagging_refuted.
(** With the spans in another order not even later calls of fit do what a newly built classifier does. *)
Theorem C95_bagging_second_fit_refuted :
  ex_twice [(10, 30); (20, 25); (40, 50)]%Z [(40, 60); (20, 60); (10, 20)]%Z 1 = [Ok [[2; 0; 1]]; Ok [[2; 0; 1]]; Ok [[2; 1; 0]]].
Proof. vm_compute. reflexivity. Qed.

(** The hypotheses of the positive theorems are met: three calls, the number of estimators changed in between. *)
Example C95_bagging_case : exists c h1 c1, new_classifier ex_model (ex_spans ex_samples 1) = Ok c /\
  leaves_spans (ex_spans ex_samples 1) [EFit Z 1 [] ex_data; ESet Z (ex_spans ex_samples 2); EFit Z 2 [1; 0] ex_data] /\
  history Z nat nat ex_model ex_greedy ex_est (ex_heap, c) [EFit Z 1 [] ex_data; ESet Z (ex_spans ex_samples 2); EFit Z 2 [1; 0] ex_data] = Ok (h1, c1) /\
  warm_start (c_params ex_model c1) = false /\ ex_draws (ex_again c1 1 [] ex_data h1) = Ok [[2; 0; 1]; [2; 0; 1]].
Proof.
  set (events := [EFit Z 1 [] ex_data; ESet Z (ex_spans ex_samples 2); EFit Z 2 [1; 0] ex_data]).
  assert (X : match new_classifier ex_model (ex_spans ex_samples 1) with Ok c => match history Z nat nat ex_model ex_greedy ex_est (ex_heap, c) events with Ok (h1, c1) =>
    warm_start (c_params ex_model c1) = false /\ ex_draws (ex_again c1 1 [] ex_data h1) = Ok [[2; 0; 1]; [2; 0; 1]] | _ => False end | _ => False end) by (vm_compute; split; reflexivity).
  assert (L : leaves_spans (ex_spans ex_samples 1) events) by (intros q [H|[H|[H|[]]]]; try discriminate H; injection H as <-; split; reflexivity).
  revert X L. clearbody events. destruct (new_classifier ex_model (ex_spans ex_samples 1)) as [c|e]; [|contradiction].
  destruct (history Z nat nat ex_model ex_greedy ex_est (ex_heap, c) events) as [[h1 c1]|e] eqn:E; [|contradiction]. intros [W D] L. exists c, h1, c1. auto.
Qed.
