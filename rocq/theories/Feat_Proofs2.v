(** Proofs: each feature transformer has no look-ahead, bounded memory and one value for each row. *)
From Coq Require Import Reals Lra Lia ZArith String.
From Verif Require Import PreludeFacts Series DailyVol_Model Feat_Model Feat_Spec Feat_Proofs.
Local Open Scope nat_scope.

Lemma local_max_causal w : no_look_ahead (local_max_to_close w).
Proof. unfold no_look_ahead, local_max_to_close. causal_tac. Qed.
Lemma local_max_rows w : one_per_row (local_max_to_close w).
Proof. unfold one_per_row, local_max_to_close. length_tac. Qed.
Lemma local_max_forgets w : 1 <= w -> forgets (w - 1) (local_max_to_close w).
Proof.
  intros H. unfold forgets, local_max_to_close. forget_tac. apply agree_zipw; [|apply agree_skipn].
  apply (agree_rolling m w _ 0); auto. apply agree_skipn.
Qed.

Lemma z_causal w l n : calc_z_score w (firstn n l) = firstn n (calc_z_score w l).
Proof. unfold calc_z_score. now push. Qed.
Lemma z_length w l : List.length (calc_z_score w l) = List.length l.
Proof. unfold calc_z_score. rewrite !zipw_length, !rolling_length. lia. Qed.
Lemma z_agree m w k l l' : 1 <= w -> agree m k l l' -> agree m (k + (w - 1)) (calc_z_score w l) (calc_z_score w l').
Proof.
  intros Hw H. unfold calc_z_score. apply agree_zipw; [|now apply agree_rolling]. apply agree_zipw; [|now apply agree_rolling].
  apply (agree_weaken m k); auto. lia.
Qed.
Lemma z_transform_causal w f : no_look_ahead f -> no_look_ahead (z_score_transform w f).
Proof.
  intros Hf X n Hw. unfold z_score_transform. rewrite (Hf X n Hw). destruct (f X); cbn [bind]; [|reflexivity]. now rewrite z_causal.
Qed.
Lemma z_transform_rows w f : one_per_row f -> one_per_row (z_score_transform w f).
Proof.
  intros Hf X out Hw. unfold z_score_transform. destruct (f X) as [s|] eqn:E; cbn [bind]; [|discriminate]. intros [= <-]. rewrite z_length. now apply (Hf X).
Qed.
Lemma bar_arrival_causal : no_look_ahead bar_arrival_time.
Proof. intros X n _. unfold bar_arrival_time. cbn [f_index head]. f_equal. push. reflexivity. Qed.
Lemma buy_sell_causal : no_look_ahead buy_sell_diff.
Proof. unfold no_look_ahead, buy_sell_diff. causal_tac. Qed.
Lemma avg_buy_causal : no_look_ahead average_buy_size.
Proof. unfold no_look_ahead, average_buy_size. causal_tac. Qed.
Lemma high_low_causal : no_look_ahead high_to_low_ratio.
Proof. unfold no_look_ahead, high_to_low_ratio. causal_tac. Qed.
Lemma bar_arrival_rows : one_per_row bar_arrival_time.
Proof. intros X out _ [= <-]. now rewrite diff_length, map_length. Qed.
Lemma buy_sell_rows : one_per_row buy_sell_diff.
Proof. unfold one_per_row, buy_sell_diff. length_tac. Qed.
Lemma avg_buy_rows : one_per_row average_buy_size.
Proof. unfold one_per_row, average_buy_size. length_tac. Qed.
Lemma high_low_rows : one_per_row high_to_low_ratio.
Proof. unfold one_per_row, high_to_low_ratio. length_tac. Qed.

Lemma roll_causal w name : no_look_ahead (roll_measure w name).
Proof. unfold no_look_ahead, roll_measure. causal_tac. Qed.
Lemma roll_rows w name : one_per_row (roll_measure w name).
Proof. unfold one_per_row, roll_measure. length_tac. Qed.
Lemma roll_forgets w name : 1 <= w -> forgets (w + 1) (roll_measure w name).
Proof.
  intros H. unfold forgets, roll_measure. forget_tac. apply agree_map. replace (w + 1) with (2 + (w - 1)) by lia.
  pose proof (agree_diff m 0 _ _ (agree_skipn m l 0)) as Hd. apply agree_rolling_cov; auto.
  - apply (agree_weaken m 1); auto.
  - now apply (agree_shift1 m 1).
Qed.

Lemma impact_causal w name vol : no_look_ahead (roll_impact w name vol).
Proof.
  intros X n Hw. unfold roll_impact. rewrite (roll_causal w name X n Hw). destruct (roll_measure w name X); cbn [bind]; [|reflexivity].
  unfold column. rewrite lookup_head. destruct (lookup vol X); cbn [option_map bind]; [|reflexivity]. f_equal. apply zipw_firstn.
Qed.
Lemma impact_rows w name vol : one_per_row (roll_impact w name vol).
Proof.
  intros X out Hw. unfold roll_impact. destruct (roll_measure w name X) eqn:E; cbn [bind]; [|discriminate]. unfold column.
  destruct (lookup vol X) eqn:E2; cbn [bind]; [|discriminate]. intros [= <-]. rewrite zipw_length, (roll_rows w name X _ Hw E), (lookup_length _ _ _ Hw E2). lia.
Qed.
Lemma impact_forgets w name vol : 1 <= w -> forgets (w + 1) (roll_impact w name vol).
Proof.
  intros H X m Hw. unfold roll_impact. pose proof (roll_forgets w name H X m Hw) as Hr. destruct (roll_measure w name X), (roll_measure w name (drop m X)); cbn [bind]; try contradiction; auto.
  unfold column. rewrite lookup_drop. destruct (lookup vol X); cbn [option_map bind]; auto.
  rewrite <- !zipw_skipn, Hr, skipn_skipn'. reflexivity.
Qed.

Lemma parkinson_causal w h l : no_look_ahead (parkinson w h l).
Proof. unfold no_look_ahead, parkinson. causal_tac. Qed.
Lemma parkinson_rows w h l : one_per_row (parkinson w h l).
Proof. unfold one_per_row, parkinson. length_tac. Qed.
Lemma parkinson_forgets w h l : 1 <= w -> forgets (w - 1) (parkinson w h l).
Proof.
  intros H. unfold forgets, parkinson. forget_tac. apply (agree_rolling m w _ 0); auto. apply agree_map. apply agree_zipw; apply agree_skipn.
Qed.

Lemma beta_causal h l w n : get_beta (firstn n h) (firstn n l) w = firstn n (get_beta h l w).
Proof. unfold get_beta. now push. Qed.
Lemma gamma_causal h l n : get_gamma (firstn n h) (firstn n l) = firstn n (get_gamma h l).
Proof. unfold get_gamma. now push. Qed.
Lemma alpha_causal b g n : get_alpha (firstn n b) (firstn n g) = firstn n (get_alpha b g).
Proof. unfold get_alpha. now push. Qed.
Lemma beta_length h l w : List.length (get_beta h l w) = Nat.min (List.length h) (List.length l).
Proof. unfold get_beta. now rewrite !rolling_length, !map_length, zipw_length. Qed.
Lemma gamma_length h l : List.length (get_gamma h l) = Nat.min (List.length h) (List.length l).
Proof. unfold get_gamma. now rewrite !map_length, zipw_length, !rolling_length. Qed.
Lemma alpha_length b g : List.length (get_alpha b g) = Nat.min (List.length b) (List.length g).
Proof. unfold get_alpha. now rewrite map_length, zipw_length, !map_length. Qed.
Lemma beta_agree m h l w : 1 <= w -> agree m w (get_beta h l w) (get_beta (skipn m h) (skipn m l) w).
Proof.
  intros Hw. unfold get_beta. replace w with (1 + (w - 1)) at 1 by lia. apply agree_rolling; auto. apply (agree_rolling m 2 _ 0); [lia|].
  apply agree_map, agree_map, agree_zipw; apply agree_skipn.
Qed.
Lemma gamma_agree m h l w : 1 <= w -> agree m w (get_gamma h l) (get_gamma (skipn m h) (skipn m l)).
Proof.
  intros Hw. apply (agree_weaken m 1); auto. unfold get_gamma. apply agree_map, agree_map, agree_zipw; apply (agree_rolling m 2 _ 0); try lia; apply agree_skipn.
Qed.
Lemma corwin_causal w h l : no_look_ahead (corwin_schultz w h l).
Proof. unfold no_look_ahead, corwin_schultz. causal_tac. now rewrite beta_causal, gamma_causal, alpha_causal, <- firstn_map. Qed.
Lemma corwin_rows w h l : one_per_row (corwin_schultz w h l).
Proof.
  intros X out Hw. unfold corwin_schultz, column. missing. columns; intros H; try discriminate. cbv zeta in H. injection H as <-.
  rewrite map_length, alpha_length, beta_length, gamma_length. rewrite (lookup_length _ _ _ Hw Heqo), (lookup_length _ _ _ Hw Heqo0). lia.
Qed.
Lemma corwin_forgets w h l : 1 <= w -> forgets w (corwin_schultz w h l).
Proof.
  intros H. unfold forgets, corwin_schultz. forget_tac. apply agree_map. unfold get_alpha. apply agree_map, agree_zipw; apply agree_map; [now apply beta_agree|now apply gamma_agree].
Qed.
Lemma beckers_causal w h l : no_look_ahead (beckers_parkinson w h l).
Proof. unfold no_look_ahead, beckers_parkinson. causal_tac. rewrite beta_causal, gamma_causal. now push. Qed.
Lemma beckers_rows w h l : one_per_row (beckers_parkinson w h l).
Proof.
  intros X out Hw. unfold beckers_parkinson, column. missing. columns; intros H; try discriminate. cbv zeta in H. injection H as <-.
  rewrite map_length, zipw_length, !map_length, beta_length, gamma_length. rewrite (lookup_length _ _ _ Hw Heqo), (lookup_length _ _ _ Hw Heqo0). lia.
Qed.
Lemma beckers_forgets w h l : 1 <= w -> forgets w (beckers_parkinson w h l).
Proof.
  intros H. unfold forgets, beckers_parkinson. forget_tac. apply agree_map, agree_zipw; apply agree_map; [now apply beta_agree|now apply gamma_agree].
Qed.

Lemma kyle_causal w c v : no_look_ahead (kyle_lambda w c v).
Proof. unfold no_look_ahead, kyle_lambda. causal_tac. Qed.
Lemma kyle_rows w c v : one_per_row (kyle_lambda w c v).
Proof. unfold one_per_row, kyle_lambda. length_tac. Qed.
Lemma kyle_forgets w c v : 1 <= w -> forgets w (kyle_lambda w c v).
Proof.
  intros H. unfold forgets, kyle_lambda. forget_tac. replace w with (1 + (w - 1)) at 1 by lia. apply agree_rolling; auto. apply agree_zipw; [|apply agree_skipn].
  apply agree_map, (agree_diff m 0), agree_skipn.
Qed.
Lemma amihud_causal w c v : no_look_ahead (amihud_lambda w c v).
Proof. unfold no_look_ahead, amihud_lambda. causal_tac. Qed.
Lemma amihud_rows w c v : one_per_row (amihud_lambda w c v).
Proof. unfold one_per_row, amihud_lambda. length_tac. Qed.
Lemma amihud_forgets w c v : 1 <= w -> forgets w (amihud_lambda w c v).
Proof.
  intros H. unfold forgets, amihud_lambda. forget_tac. replace w with (1 + (w - 1)) at 1 by lia. apply agree_rolling; auto. apply agree_zipw; [|apply agree_skipn].
  apply agree_map, (agree_diff m 0), agree_map, agree_skipn.
Qed.
Lemma hasbrouck_causal w c v : no_look_ahead (hasbrouck_lambda w c v).
Proof. unfold no_look_ahead, hasbrouck_lambda. causal_tac. Qed.
Lemma hasbrouck_rows w c v : one_per_row (hasbrouck_lambda w c v).
Proof. unfold one_per_row, hasbrouck_lambda. length_tac. Qed.
Lemma hasbrouck_forgets w c v : 1 <= w -> forgets w (hasbrouck_lambda w c v).
Proof.
  intros H. unfold forgets, hasbrouck_lambda. forget_tac. replace w with (1 + (w - 1)) at 1 by lia. apply agree_rolling; auto.
  apply agree_zipw; [|apply agree_map, agree_skipn]. apply agree_map, (agree_diff m 0), agree_map, agree_skipn.
Qed.

(** VPIN *)
Definition fill_from (w : nat) (l : list (ext R)) : list (ext R) :=
  firstn w l ++ map (fun x => if is_nan x then Fin 0%R else x) (skipn w l).
Lemma fill_from_length w l : List.length (fill_from w l) = List.length l.
Proof. unfold fill_from. rewrite app_length, map_length, firstn_length, skipn_length. lia. Qed.
Lemma fill_from_skipn w l : skipn w (fill_from w l) = map (fun x => if is_nan x then Fin 0%R else x) (skipn w l).
Proof.
  unfold fill_from. rewrite skipn_app, firstn_length. destruct (Nat.le_gt_cases w (List.length l)).
  - rewrite (skipn_all2 (firstn w l)) by (rewrite firstn_length; lia). replace (w - Nat.min w (List.length l)) with 0 by lia. reflexivity.
  - rewrite (skipn_all2 l) by lia. cbn [map]. rewrite skipn_nil, app_nil_r. apply skipn_all2. rewrite firstn_length. lia.
Qed.
Lemma fill_from_firstn w n l : fill_from w (firstn n l) = firstn n (fill_from w l).
Proof.
  unfold fill_from. rewrite firstn_app, firstn_length, !firstn_firstn. rewrite firstn_map. f_equal; [f_equal; lia|]. f_equal.
  rewrite skipn_firstn_comm. destruct (Nat.le_gt_cases w (List.length l)); [f_equal; lia|].
  rewrite (skipn_all2 l) by lia. now rewrite !firstn_nil.
Qed.
Lemma no_nan_left w l : existsb is_nan (skipn w (fill_from w l)) = false.
Proof.
  rewrite fill_from_skipn. induction (skipn w l) as [|x r IH]; cbn [map existsb]; auto. rewrite IH. destruct x; reflexivity.
Qed.
Lemma vpin_eq w v b s X : vpin w v b s X =
  do _ <- check_missing_columns X [v; b; s] ;;
  do volume <- column v X ;; do buy <- column b X ;; do sell <- column s X ;;
  Ok (fill_from w (zipw ediv (rolling w agg_sum (map eabs (zipw esub buy sell))) (rolling w agg_sum volume))).
Proof.
  unfold vpin. destruct (check_missing_columns X [v; b; s]); cbn [bind]; [|reflexivity]. destruct (column v X); cbn [bind]; [|reflexivity].
  destruct (column b X); cbn [bind]; [|reflexivity]. destruct (column s X); cbn [bind]; [|reflexivity]. cbv zeta.
  fold (fill_from w (zipw ediv (rolling w agg_sum (map eabs (zipw esub a1 a2))) (rolling w agg_sum a0))). now rewrite no_nan_left.
Qed.
Lemma vpin_causal w v b s : no_look_ahead (vpin w v b s).
Proof.
  intros X n Hw. rewrite !vpin_eq. revert X n Hw. causal_tac. now rewrite fill_from_firstn.
Qed.
Lemma vpin_rows w v b s : one_per_row (vpin w v b s).
Proof.
  intros X out Hw. rewrite vpin_eq. unfold column. missing. columns; intros H; try discriminate. injection H as <-.
  rewrite fill_from_length, zipw_length, !rolling_length, map_length, zipw_length.
  rewrite (lookup_length _ _ _ Hw Heqo), (lookup_length _ _ _ Hw Heqo0), (lookup_length _ _ _ Hw Heqo1). lia.
Qed.
Lemma vpin_forgets w v b s : 1 <= w -> forgets w (vpin w v b s).
Proof.
  intros H X m Hw. rewrite !vpin_eq. unfold column. rewrite missing_drop, !lookup_drop. missing. columns; try reflexivity.
  rewrite fill_from_skipn. rewrite Nat.add_comm, <- skipn_skipn', fill_from_skipn, skipn_map, skipn_skipn'. f_equal. rewrite Nat.add_comm.
  refine (proj2 (_ : agree m w _ _)). apply (agree_weaken m (w - 1)); [lia|]. apply agree_zipw; apply (agree_rolling m w _ 0); auto; [|apply agree_skipn].
  apply agree_map, agree_zipw; apply agree_skipn.
Qed.

(** Exponentially weighted features. *)
Lemma ewma_causal f s b name : no_look_ahead (ewma_difference f s b name).
Proof. unfold no_look_ahead, ewma_difference. causal_tac. destruct b; now push. Qed.
Lemma ewma_rows f s b name : one_per_row (ewma_difference f s b name).
Proof. unfold one_per_row, ewma_difference. destruct b; length_tac. Qed.
Lemma imbalance_causal f s t : no_look_ahead (buy_sell_imbalance f s t).
Proof. unfold no_look_ahead, buy_sell_imbalance. causal_tac. Qed.
Lemma imbalance_rows f s t : one_per_row (buy_sell_imbalance f s t).
Proof. unfold one_per_row, buy_sell_imbalance. length_tac. Qed.

(** TA-Lib based. *)
Lemma ta_causal ta name : no_look_ahead_series ta -> no_look_ahead (ta_transform ta name).
Proof. intros H X n _. unfold ta_transform. rewrite lookup_head. destruct (lookup name X); cbn [option_map]; [|reflexivity]. now rewrite H. Qed.
Lemma macd_causal ta name : no_look_ahead_series ta -> no_look_ahead (macd_crossover ta name).
Proof.
  intros H X n Hw. unfold macd_crossover. rewrite (ta_causal ta name H X n Hw). destruct (ta_transform ta name X); cbn [bind]; [|reflexivity]. f_equal. now push.
Qed.
Lemma mean_reversion_causal ta th : no_look_ahead_series ta -> no_look_ahead (mean_reversion_predict ta th).
Proof.
  intros H X n Hw. unfold mean_reversion_predict. rewrite (ta_causal ta _ H X n Hw). destruct (ta_transform ta "close" X); cbn [bind]; [|reflexivity].
  revert n Hw. unfold column. intros n Hw. rewrite lookup_head. destruct (lookup "close" X); cbn [option_map bind]; [|reflexivity]. f_equal. cbv zeta. now push.
Qed.
Lemma skipn_firstn_1 {A} n (l : list A) : skipn 1 (firstn n l) = firstn (n - 1) (skipn 1 l).
Proof. now rewrite skipn_firstn_comm. Qed.
Lemma cons_firstn {A} (x : A) n k l l' : l' = firstn (n - 1) l -> firstn (Nat.min n k) (x :: l') = firstn n (firstn k (x :: l)).
Proof.
  intros ->. rewrite firstn_firstn. remember (Nat.min n k) as j eqn:Ej. destruct j as [|j]; [reflexivity|]. cbn [firstn]. f_equal. rewrite firstn_firstn. f_equal. lia.
Qed.
Lemma bar_rsi_causal ta c : no_look_ahead_series ta -> no_look_ahead (bar_rsi_predict ta c).
Proof.
  intros H X n Hw. unfold bar_rsi_predict. rewrite (ta_causal ta _ H X n Hw). destruct (ta_transform ta "close" X); cbn [bind]; [|reflexivity]. f_equal.
  cbv zeta. cbn [head f_index]. rewrite <- zipw_firstn. f_equal. rewrite !map_length, firstn_length. apply cons_firstn.
  rewrite <- firstn_map, diff_firstn, skipn_firstn_1. now push.
Qed.
Lemma rsi_confirmation_causal ta th p w : no_look_ahead_series ta -> no_look_ahead (rsi_confirmation_predict ta th p w).
Proof.
  intros H X n Hw. unfold rsi_confirmation_predict. rewrite (ta_causal ta _ H X n Hw). destruct (ta_transform ta "close" X); cbn [bind]; [|reflexivity]. f_equal.
  cbv zeta. unfold fillna0. now push.
Qed.
