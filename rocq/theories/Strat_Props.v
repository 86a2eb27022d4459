(** Strategies that are sized from probabilities: C74, C75. *)
From Coq Require Import Reals String Lra.
From Verif Require Import Prelude Num Weights_Spec Bet_Model Bet_Spec Bet_Proofs2 Pipe_Model Pipe_Spec Strat_Model Strat_Spec Strat_Proofs.
Open Scope nat_scope.

(** Whatever the models say, a size in the result is a number in [0, 1]. *)
Theorem C74_range : forall cdf c (p : pipeline R) X df, sized_by cdf c p -> get_side_and_size p X = Ok df ->
  forall t side size, In (t, [side; size]) (rows df) -> exists v, size = Fin v /\ (0 <= v <= 1)%R.
Proof. exact strat_range. Qed.
Print Assumptions C74_range.
(** So the trader finds the signal valid if the primary model predicts -1, 0 or 1. *)
Theorem C74_valid : forall cdf c (tr : trader R) X signal valid, sized_by cdf c (strategy tr) -> (forall m, primary_model (strategy tr) = Some m -> sides_ok m) ->
  create_signal tr X = Ok (signal, valid) -> valid = true.
Proof. exact strat_valid. Qed.
Print Assumptions C74_valid.
(** The size at a time: the first class with the greatest of the probabilities that the deciding model gives for the features at that
    time, times the confidence in that probability, times the primary model's prediction if the sizer is for metalabeling. *)
Theorem C74_formula : forall cdf c (p : pipeline R) X P M df, cdf_ok cdf -> 2 <= num_classes c -> average_active c = false -> discretise c = false ->
  sized_by cdf c p -> (forall m, decider p = Some m -> probabilities_ok m) ->
  features_of p X = Ok (P, M) -> good_frames P -> (metalabeling_model p <> None -> good_frames M) -> get_side_and_size p X = Ok df ->
  exists m Xp Xs, decider p = Some m /\ complete_rows (map snd P) Xp /\ decider_features p (P, M) Xp Xs /\
    forall t side size, In (t, [side; size]) (rows df) -> exists probs k x d f,
      said predict (primary_model p) Xp t side /\ said predict_proba (decider p) Xs t (map Fin probs) /\
      List.length probs = List.length (classes m) /\ (0 <= x <= 1)%R /\ first_best k x probs /\ nth_error (classes m) k = Some (Fin d) /\ (if meta_labeling c then side = Fin f else f = 1%R) /\
      size = Fin (Rabs (d * confidence cdf (num_classes c) x * f)).
Proof. exact strat_formula. Qed.
Print Assumptions C74_formula.
(** The confidence in the greatest probability is never negative if there are no more classes than the sizer is told: the range in
    which the size shrinks with the probability (C36) is not met. *)
Theorem C74_confidence : forall cdf c m Xs t probs k x, cdf_ok cdf -> 2 <= num_classes c -> probabilities_ok m -> sum_to_one m -> List.length (classes m) <= num_classes c ->
  said predict_proba (Some m) Xs t (map Fin probs) -> first_best k x probs -> (0 <= confidence cdf (num_classes c) x <= 1)%R.
Proof. exact strat_confident. Qed.
Print Assumptions C74_confidence.
(** The pipeline never gives the sizer an expiration column, so a sizer that averages active bets never succeeds. *)
Theorem C75_refuted : forall cdf c (p : pipeline R) X, sized_by cdf c p -> average_active c = true -> is_ok (get_side_and_size p X) = false.
Proof. exact strat_average. Qed.
Print Assumptions C75_refuted.

(** A pipeline with one source, a model that always says 1 with probability 3/4, and a sizer for two classes. *)
Definition ex_model : model R := {| predict := fun rs => Ok (map (fun _ => Fin 1%R) rs); predict_proba := fun rs => Ok (map (fun _ => [Fin (1 / 4)%R; Fin (3 / 4)%R]) rs);
  classes := [Fin (-1)%R; Fin 1%R]; n_classes := 2; fitted := true |}.
Definition ex_cfg : bet_cfg := {| num_classes := 2; average_active := false; meta_labeling := false; discretise := false; step_size := None; bet_size_column_name := "bet_size" |}.
Definition ex_strategy : pipeline R := {| primary_transformers := [("bars"%string, None)]; meta_transformers := []; align_on := "bars"; align_how := []; primary_model := Some ex_model; metalabeling_model := None;
  use_proba := true; use_predictions := true; bet_sizer := Some (sizer_of logistic ex_cfg false); closing_positions_model := None |}.
Definition ex_data : dict (frame R) := [("bars"%string, {| columns := ["close"%string]; rows := [(10%Z, [Fin 5%R]); (20%Z, [Fin 7%R])] |})].
Example C74_model : sized_by logistic ex_cfg ex_strategy /\ probabilities_ok ex_model /\ sum_to_one ex_model /\ sides_ok ex_model /\ good_frames [("bars"%string, snd (hd ("", {| columns := []; rows := [] |})%string ex_data))].
Proof.
  split; [reflexivity|]. split; [split|split; [|split]].
  - intros rs vs [= <-]. apply Forall_forall. intros v Hv. apply in_map_iff in Hv. destruct Hv as (r & <- & _). exists [1 / 4; 3 / 4]%R. split; [reflexivity|]. split; [discriminate|]. split; [reflexivity|]. repeat constructor; lra.
  - repeat constructor; eexists; (split; [reflexivity|]); unfold sign_value; auto.
  - intros rs vs [= <-]. apply Forall_forall. intros v Hv. apply in_map_iff in Hv. destruct Hv as (r & <- & _). intros [|a [|b [|]]] E; try discriminate. injection E as <- <-. cbn. lra.
  - intros rs vs [= <-]. apply Forall_forall. intros v Hv. apply in_map_iff in Hv. destruct Hv as (r & <- & _). exists 1%R. unfold sign_value. auto.
  - unfold good_frames. repeat constructor; cbn; intuition (try discriminate; try lia).
Qed.
Example C74_case : exists df, get_side_and_size ex_strategy ex_data = Ok df /\ List.length (rows df) = 2 /\ features_of ex_strategy ex_data = Ok (ex_data, []).
Proof.
  assert (E : argmax [Fin (1 / 4)%R; Fin (3 / 4)%R] = Ok 1).
  { destruct (argmax_R [1 / 4; 3 / 4]%R ltac:(discriminate)) as (k & x & Hk & _ & H1 & H2). cbn [map] in Hk. rewrite Hk. f_equal. destruct k as [|[|k]]; [|reflexivity|destruct k; discriminate].
    injection H1 as <-. destruct (H2 1 (3 / 4)%R eq_refl). lra. }
  assert (E2 : row_max [Fin (1 / 4)%R; Fin (3 / 4)%R] = Fin (3 / 4)%R) by (unfold row_max; cbn [fold_left]; unfold py_max; rewrite (proj2 (eltb_R (1 / 4) (3 / 4)) ltac:(lra)); reflexivity).
  set (input := [(10%Z, (Fin (3 / 4)%R, Fin 1%R, None)); (20%Z, (Fin (3 / 4)%R, Fin 1%R, None : option (ext R)))]).
  assert (Es : exists s1 s2, sizer_of logistic ex_cfg false input = Ok [(10%Z, Fin s1); (20%Z, Fin s2)]).
  { pose (rows := [{| r_time := 10; r_prob := 3 / 4; r_pred := 1; r_side := 0; r_end := None |}; {| r_time := 20; r_prob := 3 / 4; r_pred := 1; r_side := 0; r_end := None |}] : list input_row).
    assert (Hg : Forall good_row rows) by (unfold rows; repeat constructor; cbn; unfold sign_value; auto; lra).
    pose proof (Bet_Proofs3.sizes logistic logistic_ok ex_cfg ltac:(cbn; lia) rows Hg eq_refl eq_refl) as H. do 2 eexists.
    assert (Eq : sizer_of logistic ex_cfg false input = bet_transform logistic ex_cfg (frame_of rows)) by (unfold sizer_of, bet_transform; rewrite !bet_plain by (reflexivity || discriminate); reflexivity).
    rewrite Eq, H. reflexivity. }
  destruct Es as (s1 & s2 & Es). eexists. split; [|split].
  - unfold get_side_and_size. change (predict_all ex_strategy ex_data) with (@Ok (list (Z * ext R) * option (list (Z * ext R))) ([(10%Z, Fin 1%R); (20%Z, Fin 1%R)], None)).
    change (predict_proba_all ex_strategy ex_data) with (@Ok (list (Z * list (ext R)) * option (list (Z * list (ext R)))) ([(10%Z, [Fin (1 / 4)%R; Fin (3 / 4)%R]); (20%Z, [Fin (1 / 4)%R; Fin (3 / 4)%R])], None)).
    cbn [bind need primary_model ex_strategy metalabeling_model fst snd bet_sizer mapM]. rewrite E, E2. cbn [bind ex_model classes get nth_error fst snd map]. unfold input in Es. rewrite Es. reflexivity.
  - reflexivity.
  - reflexivity.
Qed.
