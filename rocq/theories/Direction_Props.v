(** C100: a market that moves in one direction is recognised as such. *)
From Coq Require Import QArith Reals Lra Lia ZArith String Permutation.
From Verif Require Import PreludeFacts Series OLS_Model OLS_Spec Trend_Model Trend_Spec Trend_Proofs Trend_Proofs2 Trend_Proofs3 Trend_Proofs4 DailyVol_Model Label_Model Label_Spec Label_Proofs3
  Cusum_Model Feat_Model Feat_Spec Direction_Spec Direction_Proofs Direction_Proofs2 Direction_Proofs3 Direction_Proofs4 Direction_Proofs5.
Local Open Scope nat_scope.

(** Trend scanning: if prices do not fall over the bars scanned from an event, its label is 1 and its t-value positive. *)
Theorem C100_trends_up : forall inv, inv_sound inv -> inv_complete 2 inv ->
  forall cfg, t_step cfg = 1 -> 3 <= t_min cfg < t_window cfg ->
  forall junk events y rows i t k p0 r, increasingZ (map fst y) -> snd (Trend_Model.transform inv junk cfg events y) = Ok rows ->
  nth_error (match events with None => map fst y | Some ev => ev end) i = Some t -> nth_error y k = Some (t, p0) ->
  k + t_window cfg <= List.length y -> nth_error rows i = Some r ->
  never_falls (price y k) (t_window cfg - 1) ->
  tr_label r = Fin 1%R /\ (exists v, tr_t r = Fin v /\ (0 < v)%R) /\ ((0 < p0)%R -> exists v, tr_return r = Fin v /\ (0 <= v)%R).
Proof. exact scan_up. Qed.
Print Assumptions C100_trends_up.
Theorem C100_trends_down : forall inv, inv_sound inv -> inv_complete 2 inv ->
  forall cfg, t_step cfg = 1 -> 3 <= t_min cfg < t_window cfg ->
  forall junk events y rows i t k p0 r, increasingZ (map fst y) -> snd (Trend_Model.transform inv junk cfg events y) = Ok rows ->
  nth_error (match events with None => map fst y | Some ev => ev end) i = Some t -> nth_error y k = Some (t, p0) ->
  k + t_window cfg <= List.length y -> nth_error rows i = Some r ->
  never_rises (price y k) (t_window cfg - 1) ->
  tr_label r = Fin (-1)%R /\ (exists v, tr_t r = Fin v /\ (v < 0)%R) /\ ((0 < p0)%R -> exists v, tr_return r = Fin v /\ (v <= 0)%R).
Proof. exact scan_down. Qed.
Print Assumptions C100_trends_down.
Definition c100_cfg : trend_cfg := {| t_window := 4; t_min := 3; t_step := 1 |}.
Definition c100_y : list (Z * R) := [(10%Z, 1%R); (20%Z, 2%R); (30%Z, 4%R); (40%Z, 7%R)].
Example C100_trends_case : never_falls (price c100_y 0) 3 /\
  exists r, snd (Trend_Model.transform inv_small (fun _ _ => NaN) c100_cfg (Some [10%Z]) c100_y) = Ok [r] /\ tr_label r = Fin 1%R.
Proof.
  assert (U : never_falls (price c100_y 0) 3). { intros i j H. unfold price. cbn [map snd c100_y]. destruct i as [|[|[|]]]; destruct j as [|[|[|]]]; try lia; cbn; lra. }
  split; [exact U|]. assert (I : increasingZ (map fst c100_y)) by (cbn; repeat constructor). assert (Hm : 3 <= t_min c100_cfg < t_window c100_cfg) by (cbn; lia).
  destruct (c32_defined inv_small inv_small_sound inv_small_complete_2 c100_cfg eq_refl Hm (fun _ _ => NaN) (Some [10%Z]) c100_y I) as [[_ H] _]; [intros z [<-|[]]; now left|].
  destruct H as [rows H].
  { intros t k p0 w [<-|[]] Hk Hl Hw. destruct k as [|k]; [apply bent_not_straight; [cbn in Hw; lia|unfold price; cbn; lra]|]. exfalso. cbn in Hl. lia. }
  pose proof (c32 inv_small inv_small_sound inv_small_complete_2 c100_cfg eq_refl Hm _ _ _ _ I H) as F. inversion F as [|t r l rs Hr F' E1 E2]; subst. inversion F'; subst. exists r. split; [exact H|].
  eapply (scan_up inv_small inv_small_sound inv_small_complete_2 c100_cfg eq_refl Hm _ (Some [10%Z]) c100_y [r] 0 10%Z 0 1%R r I H); try reflexivity. exact U.
Qed.

(** Barrier labels, without metalabeling and without a column "side": if no later price is below the event's price, the
    return is not negative, the stop loss is never touched, and the label is 1 or 0; it is 1 when profits are taken. *)
Theorem C100_labels_up : forall span order (cfg : config R) y close out i o c0 t,
  valid_times (Label_Model.f_index y) -> Label_Spec.well_formed y -> Permutation order (seq 0 (List.length (Label_Model.f_index y))) -> (0 <= n_expiration_bars cfg)%Z ->
  Label_Model.column y (close_column cfg) = Some close -> Label_Model.column y "side"%string = None -> metalabeling cfg = false ->
  Label_Model.transform (get_daily_vol (ewm_std span)) order cfg y = Ok out -> nth_error out i = Some o -> o_end o = Some t ->
  nth_error close i = Some (Fin c0) -> (0 < c0)%R -> stays_above close i c0 ->
  exists r, o_return o = Fin r /\ (0 <= r)%R /\ (o_label o = Fin 0%R \/ o_label o = Fin 1%R) /\
    (expiration_label cfg = false -> (o_label o = Fin 1%R <-> (0 < r)%R)) /\
    (forall e u, search_end (Label_Model.f_index y) (n_expiration_bars cfg) i e ->
       ~ touch (Label_Model.f_index y) close i e (Fin a1) (below_stop (stop_loss_factor cfg) (o_vol o)) u) /\
    (forall e, search_end (Label_Model.f_index y) (n_expiration_bars cfg) i e ->
       touch (Label_Model.f_index y) close i e (Fin a1) (above_profit (profit_taking_factor cfg) (o_vol o)) t -> o_label o = Fin 1%R).
Proof. exact real_up. Qed.
Print Assumptions C100_labels_up.
Theorem C100_labels_down : forall span order (cfg : config R) y close out i o c0 t,
  valid_times (Label_Model.f_index y) -> Label_Spec.well_formed y -> Permutation order (seq 0 (List.length (Label_Model.f_index y))) -> (0 <= n_expiration_bars cfg)%Z ->
  Label_Model.column y (close_column cfg) = Some close -> Label_Model.column y "side"%string = None -> metalabeling cfg = false ->
  Label_Model.transform (get_daily_vol (ewm_std span)) order cfg y = Ok out -> nth_error out i = Some o -> o_end o = Some t ->
  nth_error close i = Some (Fin c0) -> (0 < c0)%R -> stays_below close i c0 ->
  exists r, o_return o = Fin r /\ (r <= 0)%R /\ (o_label o = Fin 0%R \/ o_label o = Fin (-1)%R) /\
    (expiration_label cfg = false -> (o_label o = Fin (-1)%R <-> (r < 0)%R)) /\
    (forall e u, search_end (Label_Model.f_index y) (n_expiration_bars cfg) i e ->
       ~ touch (Label_Model.f_index y) close i e (Fin a1) (above_profit (profit_taking_factor cfg) (o_vol o)) u) /\
    (forall e, search_end (Label_Model.f_index y) (n_expiration_bars cfg) i e ->
       touch (Label_Model.f_index y) close i e (Fin a1) (below_stop (stop_loss_factor cfg) (o_vol o)) t -> o_label o = Fin (-1)%R).
Proof. exact real_down. Qed.
Print Assumptions C100_labels_down.
Definition c100_labels : config R :=
  {| n_expiration_bars := 1; profit_taking_factor := 2%R; stop_loss_factor := 1%R; metalabeling := false; close_column := "close"%string;
     side_column := "side"%string; volatility_adjusted := false; expiration_label := false |}.
Definition c100_bars : Label_Model.frame R :=
  {| Label_Model.f_index := [1000000; 2000000]%Z; Label_Model.f_cols := [("close"%string, [Fin 5; Fin 6]%R)] |}.
Example C100_labels_case : stays_above [Fin 5; Fin 6]%R 0 5 /\
  exists out o, Label_Model.transform (get_daily_vol (ewm_std 2)) [0; 1] c100_labels c100_bars = Ok out /\ nth_error out 0 = Some o /\
    o_end o = Some 2000000%Z /\ o_label o = Fin 1%R.
Proof.
  assert (U : stays_above [Fin 5; Fin 6]%R 0 5). { intros k x _ H. destruct k as [|[|k]]; cbn in H; [| |destruct k; discriminate]; injection H as <-; eexists; (split; [reflexivity|lra]). }
  split; [exact U|]. assert (V : valid_times (Label_Model.f_index c100_bars)).
  { split; [cbn; repeat constructor|]. intros t [<-|[<-|[]]]; split; try lia; reflexivity. }
  assert (W : Label_Spec.well_formed c100_bars). { intros n col H. unfold Label_Model.column in H. cbn [Label_Model.f_cols c100_bars find fst] in H. destruct (String.eqb "close" n); [injection H as <-; reflexivity|discriminate]. }
  assert (P : Permutation [0; 1] (seq 0 (List.length (Label_Model.f_index c100_bars)))) by apply Permutation_refl.
  destruct (transform_succeeds (get_daily_vol (ewm_std 2)) [0; 1] c100_labels c100_bars [Fin 5; Fin 6]%R V W P ltac:(discriminate) eq_refl eq_refl ltac:(discriminate)) as (out & E & L).
  { cbn. destruct (Rlt_dec 2 0); [lra|reflexivity]. } { discriminate. } { discriminate. }
  destruct out as [|o out]; [discriminate|]. exists (o :: out), o. split; [exact E|]. split; [reflexivity|].
  assert (Ov : o_vol o = Fin 1%R). { destruct (out_row_vol _ _ _ _ _ 0 o V W P E eq_refl) as (close & vol & _ & Hv & Hn & _). unfold row_vols in Hv. cbn in Hv. injection Hv as <-. cbn in Hn. injection Hn as Hn. now rewrite <- Hn. }
  assert (En : o_end o = Some 2000000%Z).
  { apply (c27 (get_daily_vol (ewm_std 2)) [0; 1] c100_labels c100_bars [Fin 5; Fin 6]%R (o :: out) 0 o (Fin a1) V W P eq_refl eq_refl E eq_refl ltac:(now rewrite Ov)). split; [left; exists 1; split; reflexivity|].
    intros u [(p & Hp1 & Hp2)|(e & He & T)]; [assert (p = 1) as -> by (cbn in Hp1; lia); injection Hp2 as <-; lia|]. rewrite Ov in T.
    assert (Z1 : forall test, touch (Label_Model.f_index c100_bars) [Fin 5; Fin 6]%R 0 e (Fin a1) test u -> u = 1000000%Z -> test (Fin (0 * 1))%R = true).
    { intros test (t0 & c0 & k & c & A1 & A2 & A3 & A4 & A5 & A6) ->. destruct k as [|[|k]]; [|discriminate A3|destruct k; discriminate A3]. cbn in A2, A4. injection A2 as <-. injection A4 as <-.
      unfold side_return in A6. rewrite (ret_eq 5 5) in A6 by lra. cbn in A6. replace (5 / 5 - 1)%R with 0%R in A6 by lra. exact A6. }
    assert (In0 : In u [1000000; 2000000]%Z). { destruct T as [(t0 & c0 & k & c & A1 & A2 & A3 & _)|(t0 & c0 & k & c & A1 & A2 & A3 & _)]; eapply nth_error_In; exact A3. }
    destruct In0 as [<-|[<-|[]]]; [|lia]. exfalso. destruct T as [T|T]; apply Z1 in T; auto; unfold below_stop, above_profit in T; cbn in T; destruct (Rlt_dec 0 1); destruct (Rlt_dec 0 2); cbn in T; try lra;
      match type of T with context[Rlt_dec ?a ?b] => destruct (Rlt_dec a b); [lra|discriminate T] end. }
  split; [exact En|].
  destruct (real_up 2 [0; 1] c100_labels c100_bars [Fin 5; Fin 6]%R (o :: out) 0 o 5 2000000%Z V W P ltac:(cbn; lia) eq_refl eq_refl eq_refl E eq_refl En eq_refl ltac:(lra) U) as (r & Hr & _ & _ & Hl & _).
  apply (Hl eq_refl). destruct (c28 (get_daily_vol (ewm_std 2)) [0; 1] c100_labels c100_bars [Fin 5; Fin 6]%R (o :: out) 0 o (Fin a1) 2000000%Z V W P eq_refl eq_refl E eq_refl En) as (p & c0 & c & Q1 & Q2 & Q3 & Q4 & _).
  destruct p as [|[|p]]; [discriminate Q1| |destruct p; discriminate Q1]. cbn in Q2, Q3. injection Q2 as <-. injection Q3 as <-. cbn [metalabeling c100_labels] in Q4. rewrite (ret_eq 6 5) in Q4 by lra. rewrite Q4 in Hr. injection Hr as <-. lra.
Qed.

(** The difference of the fast and slow exponential averages has the sign of the movement. *)
Theorem C100_ewma_difference : forall X fast slow normalised name c, (1 <= fast <= slow)%R -> has_column X name c -> Forall (fun x => 0 <= x)%R c ->
  exists out, ewma_difference fast slow normalised name X = Ok out /\ List.length out = List.length c /\
  (never_falls (row c) (List.length c) -> forall i x, nth_error out i = Some x -> exists v, x = Fin v /\ (0 <= v)%R) /\
  (never_rises (row c) (List.length c) -> forall i x, nth_error out i = Some x -> exists v, x = Fin v /\ (v <= 0)%R) /\
  ((fast < slow)%R -> always_rises (row c) (List.length c) -> forall i x, 1 <= i -> nth_error out i = Some x -> exists v, x = Fin v /\ (0 < v)%R) /\
  ((fast < slow)%R -> always_falls (row c) (List.length c) -> forall i x, 1 <= i -> nth_error out i = Some x -> exists v, x = Fin v /\ (v < 0)%R).
Proof. exact ewma_direction. Qed.
Print Assumptions C100_ewma_difference.

(** The moving-average crossover never takes the side against the movement. But it only notices crossings: while the price
    rises (falls) at every bar from the start, the side is 0 throughout, with or without filling. *)
Theorem C100_crossover : forall fast slow fill name X c, 1 <= fast <= slow -> NoDup (f_index X) -> well_formed X -> has_column X name c ->
  exists side, ma_crossover fast slow fill name X = Ok (map Fin side) /\ List.length side = List.length (f_index X) /\
  (never_falls (row c) (List.length c) -> Forall (fun d => d = 0 \/ d = 1)%R side) /\
  (never_rises (row c) (List.length c) -> Forall (fun d => d = 0 \/ d = -1)%R side) /\
  (always_rises (row c) (List.length c) \/ always_falls (row c) (List.length c) -> Forall (fun d => d = 0)%R side).
Proof. exact crossover_direction. Qed.
Print Assumptions C100_crossover.
(** After a flat stretch as long as the slow window, a rise within the current slow window gives the long side, with filling. *)
Theorem C100_crossover_turn : forall fast slow name X c i j, 1 <= fast < slow -> NoDup (f_index X) -> well_formed X -> has_column X name c ->
  never_falls (row c) (List.length c) -> slow <= j + 1 -> j < i < List.length c ->
  row c (j + 1 - slow) = row c j -> (row c (i + 1 - slow) < row c i)%R ->
  exists side, ma_crossover fast slow true name X = Ok (map Fin side) /\ nth_error side i = Some 1%R.
Proof. exact crossover_turn. Qed.
Print Assumptions C100_crossover_turn.
Definition c100_frame (c : list R) : frame := {| f_index := [1; 2; 3; 4]%Z; f_cols := [("close"%string, map Fin c)] |}.
Example C100_averages_case : let c := [1; 2; 4; 7]%R in let d := [1; 1; 1; 2]%R in
  NoDup (f_index (c100_frame c)) /\ well_formed (c100_frame c) /\ has_column (c100_frame c) "close" c /\ always_rises (row c) 4 /\
  well_formed (c100_frame d) /\ never_falls (row d) 4 /\ row d (1 + 1 - 2) = row d 1 /\ (row d (3 + 1 - 2) < row d 3)%R.
Proof.
  cbv zeta. repeat split; try reflexivity.
  - repeat constructor; cbn; intuition lia.
  - intros c [<-|[]]; reflexivity.
  - intros i j H. unfold row. destruct i as [|[|[|[|]]]]; destruct j as [|[|[|[|]]]]; try lia; cbn; lra.
  - intros c [<-|[]]; reflexivity.
  - intros i j H. unfold row. destruct i as [|[|[|[|]]]]; destruct j as [|[|[|[|]]]]; try lia; cbn; lra.
  - unfold row. cbn. lra.
Qed.

(** Down-sampling: of a price that stays at one level and then at another, exactly the bar of the change is selected if the
    levels differ by more than the threshold, and nothing otherwise. *)
Theorem C100_one_change : forall h a b before after, (0 <= h)%Q -> before <> [] -> NoDup (before ++ after) ->
  (((h < b - a)%Q \/ (h < a - b)%Q) -> cusum_transform h (one_step a b before after) = Ok (firstn 1 after)) /\
  ((b - a <= h)%Q -> (a - b <= h)%Q -> cusum_transform h (one_step a b before after) = Ok []).
Proof. exact one_step_selected. Qed.
Print Assumptions C100_one_change.
Example C100_one_change_case : cusum_transform 1%Q (one_step 5%Q 3%Q [1; 2; 3]%Z [4; 5]%Z) = Ok [4%Z].
Proof. vm_compute. reflexivity. Qed.
