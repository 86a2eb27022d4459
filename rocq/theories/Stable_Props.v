(** C123: a small revision of the data moves the features by little. *)
From Coq Require Import Reals ZArith Lra Lia List String.
From Verif Require Import Prelude PreludeFacts Num Series DailyVol_Model Feat_Model Double_Bound_Spec Stable_Spec Stable_Proofs Stable_Proofs2.
Import ListNotations.
Local Open Scope R_scope.
Local Notation length := List.length.

Lemma rows {A B} (P : A -> B -> Prop) l l' : Forall2 P l l' -> forall i x y, nth_error l i = Some x -> nth_error l' i = Some y -> P x y.
Proof. intros F. induction F as [|a b l l' H F IH]; intros [|i] x y Hx Hy; try discriminate; cbn in *; [injection Hx as <-; injection Hy as <-; exact H|now apply (IH i)]. Qed.

(** Moving averages, maxima and minima move by at most e, moving deviations by at most sqrt 2 * e. *)
Theorem C123_windows : forall e w c c', revised e c c' -> forall i x y,
  (nth_error (rolling w agg_mean c) i = Some x -> nth_error (rolling w agg_mean c') i = Some y -> close_to e x y) /\
  (nth_error (rolling w agg_max c) i = Some x -> nth_error (rolling w agg_max c') i = Some y -> close_to e x y) /\
  (nth_error (rolling w agg_min c) i = Some x -> nth_error (rolling w agg_min c') i = Some y -> close_to e x y) /\
  (nth_error (rolling w agg_std c) i = Some x -> nth_error (rolling w agg_std c') i = Some y -> close_to (sqrt 2 * e) x y).
Proof.
  intros e w c c' F i x y. repeat split; intros Hx Hy.
  - exact (rows _ _ _ (rolling_related (apart e) e w agg_mean c c' (fun v v' G _ => mean_apart e v v' G) F) i x y Hx Hy).
  - exact (rows _ _ _ (rolling_related (apart e) e w agg_max c c' (fun v v' G _ => max_apart e v v' G) F) i x y Hx Hy).
  - exact (rows _ _ _ (rolling_related (apart e) e w agg_min c c' (fun v v' G _ => min_apart e v v' G) F) i x y Hx Hy).
  - exact (rows _ _ _ (rolling_related (apart (sqrt 2 * e)) e w agg_std c c' (fun v v' G _ => std_apart e v v' G) F) i x y Hx Hy).
Qed.
Print Assumptions C123_windows.

(** Exponential averages move by at most e, the difference of two of them by at most 2 e. *)
Theorem C123_difference : forall e fast slow name X X' c c' out out', 1 <= fast -> 1 <= slow -> lookup name X = Some c -> lookup name X' = Some c' -> revised e c c' ->
  ewma_difference fast slow false name X = Ok out -> ewma_difference fast slow false name X' = Ok out' ->
  forall i x y, (nth_error (ewm_mean fast c) i = Some x -> nth_error (ewm_mean fast c') i = Some y -> close_to e x y) /\
                (nth_error out i = Some x -> nth_error out' i = Some y -> close_to (2 * e) x y).
Proof.
  intros e fast slow name X X' c c' out out' Hf Hs Hc Hc' F E E' i x y. unfold ewma_difference, column in E, E'. rewrite Hc in E. rewrite Hc' in E'. cbn [bind] in E, E'. injection E as <-. injection E' as <-. split.
  - exact (rows _ _ _ (ewm_apart e fast c c' Hf F) i x y).
  - exact (rows _ _ _ (difference_apart e fast slow c c' Hf Hs F) i x y).
Qed.
Print Assumptions C123_difference.

(** The imbalance of buys and sells moves by at most 4 e when the bought and sold volumes move by at most e and the total volumes, which are not
    negative, stay. *)
Theorem C123_imbalance : forall e fast slow type X X' b b' s s' v out out', 1 <= fast -> 1 <= slow ->
  lookup (type ++ "_asset_buy_volume") X = Some b -> lookup (type ++ "_asset_buy_volume") X' = Some b' -> revised e b b' ->
  lookup (type ++ "_asset_sell_volume") X = Some s -> lookup (type ++ "_asset_sell_volume") X' = Some s' -> revised e s s' ->
  lookup (type ++ "_asset_volume") X = Some v -> lookup (type ++ "_asset_volume") X' = Some v -> (forall x, In x v -> exists a, x = Fin a /\ 0 <= a) ->
  buy_sell_imbalance fast slow type X = Ok out -> buy_sell_imbalance fast slow type X' = Ok out' ->
  forall i x y, nth_error out i = Some x -> nth_error out' i = Some y -> close_to (4 * e) x y.
Proof.
  intros e fast slow type X X' b b' s s' v out out' Hf Hs Hb Hb' Fb Hs1 Hs1' Fs Hv Hv' V E E' i x y. unfold buy_sell_imbalance, column in E, E'. rewrite Hb, Hs1 in E. rewrite Hb', Hs1' in E'. cbn [bind] in E, E'. rewrite Hv in E. rewrite Hv' in E'. cbn [bind] in E, E'.
  injection E as <-. injection E' as <-. exact (rows _ _ _ (imbalance_apart e fast slow b b' s s' v Hf Hs Fb Fs V) i x y).
Qed.
Print Assumptions C123_imbalance.

(** The side of the moving-average crossover does not move at all if the two averages are more than 2 e apart wherever both exist. *)
Theorem C123_side : forall e fast slow fill name X X' c c', f_index X = f_index X' -> lookup name X = Some c -> lookup name X' = Some c' -> revised e c c' ->
  (forall i x y, nth_error (rolling fast agg_mean c) i = Some (Fin x) -> nth_error (rolling slow agg_mean c) i = Some (Fin y) -> 2 * e < Rabs (x - y)) ->
  ma_crossover fast slow fill name X = ma_crossover fast slow fill name X'.
Proof. intros e fast slow fill name X X' c c' I Hc Hc' F M. exact (crossover_same e fast slow fill name (f_index X') X X' c c' I eq_refl Hc Hc' F M). Qed.
Print Assumptions C123_side.

(** Without that distance it can: in a flat market any rise of the last price, however small, is an up-crossing. *)
Definition last3 (z : R) : frame := {| f_index := [1; 2; 3]%Z; f_cols := [("close"%string, [Fin 1; Fin 1; Fin z])] |}.
Lemma last3_fast z : rolling 1 agg_mean [Fin 1; Fin 1; Fin z] = [Fin 1; Fin 1; Fin z].
Proof. unfold rolling. cbn. unfold mean, lsum. cbn. repeat f_equal; lra. Qed.
Lemma last3_slow z : rolling 2 agg_mean [Fin 1; Fin 1; Fin z] = [NaN; Fin 1; Fin ((1 + z) / 2)].
Proof. unfold rolling. cbn. unfold mean, lsum. cbn. repeat f_equal; lra. Qed.
Lemma le_refl_R (x : R) : eleb (Fin x) (Fin x) = true /\ eltb (Fin x) (Fin x) = false.
Proof. unfold eleb, eeqb, eltb. cbn [altb aeqb Arith_R]. destruct (Rlt_dec x x) as [N|_]; [lra|]. destruct (Req_EM_T x x) as [_|N]; [split; reflexivity|lra]. Qed.
Lemma last3_flat : ma_crossover 1 2 false "close" (last3 1) = Ok [Fin 0; Fin 0; Fin 0].
Proof.
  unfold ma_crossover, column. cbn [lookup last3 f_cols find option_map snd fst String.eqb Ascii.eqb Bool.eqb bind f_index]. rewrite last3_fast, last3_slow. replace ((1 + 1) / 2) with 1 by lra.
  unfold up_cross_indices, down_cross_indices, shift1, zipw. cbn [length firstn combine map fst snd]. destruct (le_refl_R 1) as [-> ->]. reflexivity.
Qed.
Lemma last3_rise z : 1 < z -> ma_crossover 1 2 false "close" (last3 z) = Ok [Fin 0; Fin 0; Fin 1].
Proof.
  intros H. unfold ma_crossover, column. cbn [lookup last3 f_cols find option_map snd fst String.eqb Ascii.eqb Bool.eqb bind f_index]. rewrite last3_fast, last3_slow.
  unfold up_cross_indices, down_cross_indices, shift1, zipw. cbn [length firstn combine map fst snd]. destruct (le_refl_R 1) as [-> ->]. destruct (lt_all ((1 + z) / 2) z ltac:(lra)) as (-> & _ & -> & _). reflexivity.
Qed.
Theorem C123_side_margin_needed : forall e, 0 < e -> exists X X' c c', f_index X = f_index X' /\ lookup "close" X = Some c /\ lookup "close" X' = Some c' /\ revised e c c' /\
  ma_crossover 1 2 false "close" X = Ok [Fin 0; Fin 0; Fin 0] /\ ma_crossover 1 2 false "close" X' = Ok [Fin 0; Fin 0; Fin 1].
Proof.
  intros e He. exists (last3 1), (last3 (1 + e)). eexists _, _. split; [reflexivity|]. split; [reflexivity|]. split; [reflexivity|]. split; [|split; [apply last3_flat|apply last3_rise; lra]].
  unfold revised; repeat (apply Forall2_cons; [first [exact I|apply Rabs_le; lra]|]); apply Forall2_nil.
Qed.
Print Assumptions C123_side_margin_needed.

(** A case that meets the hypotheses of [C123_side]: a rising market, revised by less than an eighth. *)
Example C123_side_case : exists c c', c <> c' /\ revised (1 / 10) c c' /\
  (forall i x y, nth_error (rolling 1 agg_mean c) i = Some (Fin x) -> nth_error (rolling 2 agg_mean c) i = Some (Fin y) -> 2 * (1 / 10) < Rabs (x - y)).
Proof.
  exists [Fin 1; NaN; Fin 2; Fin 3], [Fin 1; NaN; Fin (2 + 1 / 10); Fin 3]. split; [intros N; injection N; lra|]. split; [unfold revised; repeat (apply Forall2_cons; [first [exact I|apply Rabs_le; lra]|]); apply Forall2_nil|].
  intros i x y Hx Hy. replace (rolling 1 agg_mean [Fin 1; NaN; Fin 2; Fin 3]) with [Fin 1; NaN; Fin 2; Fin 3] in Hx by (unfold rolling; cbn; unfold mean, lsum; cbn; repeat f_equal; lra).
  replace (rolling 2 agg_mean [Fin 1; NaN; Fin 2; Fin 3]) with [NaN; NaN; NaN; Fin (5 / 2)] in Hy by (unfold rolling; cbn; unfold mean, lsum; cbn; repeat f_equal; lra).
  destruct i as [|[|[|[|i]]]]; cbn in Hx, Hy; try discriminate; [|destruct i; discriminate]. injection Hx as <-. injection Hy as <-. rewrite Rabs_pos_eq; lra.
Qed.
