(** Proofs: signals of the rule-based predictors. *)
From Coq Require Import Reals Lra Lia ZArith String.
From Verif Require Import PreludeFacts Series DailyVol_Model Feat_Model Feat_Spec Feat_Proofs Feat_Proofs2 Feat_Proofs3 Feat_Proofs4 Feat_Proofs5 Feat_Proofs6.
Local Open Scope nat_scope.

Lemma below_spec x b : eltb x (Fin b) = true <-> below x b.
Proof.
  destruct x; cbn; unfold below.
  - split; [|intros [H|(v & E & H)]; [discriminate|injection E as ->; destruct (Rlt_dec v b); [reflexivity|lra]]].
    destruct (Rlt_dec a b); [|discriminate]. intros _. right. eauto.
  - split; [discriminate|]. intros [H|(v & E & H)]; discriminate.
  - split; auto.
  - split; [discriminate|]. intros [H|(v & E & H)]; discriminate.
Qed.
Lemma above_spec x b : eltb (Fin b) x = true <-> above x b.
Proof.
  destruct x; cbn; unfold above.
  - split; [|intros [H|(v & E & H)]; [discriminate|injection E as ->; destruct (Rlt_dec b v); [reflexivity|lra]]].
    destruct (Rlt_dec b a); [|discriminate]. intros _. right. eauto.
  - split; auto.
  - split; [discriminate|]. intros [H|(v & E & H)]; discriminate.
  - split; [discriminate|]. intros [H|(v & E & H)]; discriminate.
Qed.
Lemma bool_signal (b : bool) (P : Prop) (o : option (ext R)) : (b = true <-> P) -> o = Some (of_bool b) ->
  (P /\ o = Some (Fin 1%R)) \/ (~ P /\ o = Some (Fin 0%R)).
Proof. intros H ->. destruct b; [left|right]; (split; [|reflexivity]); [now apply H|]. intros Hp. apply H in Hp. discriminate. Qed.

(** ** Mean reversion *)
Lemma mean_reversion_rule ema th X c : lookup "close" X = Some c -> List.length (ema c) = List.length c -> (0 <= th)%R ->
  exists out, mean_reversion_predict ema th X = Ok out /\ List.length out = List.length c /\
  forall i p a, nth_error c i = Some (Fin p) -> nth_error (ema c) i = Some (Fin a) -> (0 < a)%R ->
    ((p < a * (1 - th))%R /\ nth_error out i = Some (Fin 1%R)) \/
    ((a * (1 + th) < p)%R /\ nth_error out i = Some (Fin (-1)%R)) \/
    ((a * (1 - th) <= p <= a * (1 + th))%R /\ nth_error out i = Some (Fin 0%R)).
Proof.
  intros Hc Hl Hth. unfold mean_reversion_predict, ta_transform, column. rewrite Hc. cbn [bind]. eexists. split; [reflexivity|]. split.
  { rewrite map_length, !zipw_length. lia. }
  intros i p a Hp Ha Hpos. rewrite nth_error_map, !zipw_nth, Hp, Ha. cbn [option_map]. unfold esub. cbn [eopp eadd aopp aadd Arith_R]. rewrite ediv_fin by lra.
  assert (E : ((p + - a) / a * a = p - a)%R) by (field; lra). set (d := ((p + - a) / a)%R) in *. cbn [eltb altb Arith_R].
  destruct (Rlt_dec d (- th)) as [H|H].
  - left. split; [|reflexivity]. nra.
  - right. destruct (Rlt_dec th d) as [H'|H'].
    + left. split; [|reflexivity]. nra.
    + right. split; [|reflexivity]. assert (d * a >= - th * a)%R by nra. assert (d * a <= th * a)%R by nra. lra.
Qed.

(** ** RSI confirmation *)
Lemma all_true_spec w l i : 1 <= w -> i < List.length l ->
  nth_error (map (fun x => negb (eeqb x (Fin 0%R))) (fillna0 (rolling w all_true (map of_bool l)))) i =
  Some (negb (Nat.ltb (i + 1) w) && forallb (fun j => nth (i + 1 - w + j) l false) (seq 0 w)).
Proof.
  intros Hw Hi. unfold fillna0. rewrite !nth_error_map, rolling_nth by (rewrite ?map_length; auto). cbn [option_map]. f_equal. unfold last_values.
  destruct (Nat.ltb_spec (i + 1) w); [cbn; now destruct (Req_EM_T 0 0); [|lra]|]. cbn [negb andb].
  set (g := fun j : nat => if nth (i + 1 - w + j) l false then 1%R else 0%R).
  assert (E : map (fun j => nth (i + 1 - w + j) (map of_bool l) NaN) (seq 0 w) = map Fin (map g (seq 0 w))).
  { rewrite map_map. apply map_ext_in. intros j Hj. apply in_seq in Hj. rewrite (nth_indep _ NaN (of_bool false)) by (rewrite map_length; lia). rewrite map_nth. reflexivity. }
  rewrite E, all_numbers_fin. unfold all_true. unfold g. clear.
  assert (Hf : forall s, forallb (fun x => if Req_EM_T x 0 then false else true) (map (fun j : nat => if nth (i + 1 - w + j) l false then 1%R else 0%R) s) =
               forallb (fun j => nth (i + 1 - w + j) l false) s).
  { induction s as [|j s IH]; [reflexivity|]. cbn [map forallb]. rewrite IH. f_equal. destruct (nth _ l false); destruct (Req_EM_T _ 0); auto; lra. }
  rewrite Hf. destruct (forallb _ (seq 0 w)); cbn; destruct (Req_EM_T _ 0); auto; lra.
Qed.
Lemma rsi_confirmation_rule rsi th cp mw X c : 1 <= cp -> 1 <= mw -> lookup "close" X = Some c -> List.length (rsi c) = List.length c ->
  exists out, rsi_confirmation_predict rsi th cp mw X = Ok out /\
  signals (List.length c) (fun i => cp <= i + 1 /\ (forall j, i + 1 - cp <= j <= i -> exists x, nth_error (rsi c) j = Some x /\ below x th) /\
    exists k a b, i = S k /\ moving_average mw (rsi c) k = Some a /\ moving_average mw (rsi c) i = Some b /\ (a < b)%R) out.
Proof.
  intros Hcp Hmw Hc Hl. unfold rsi_confirmation_predict, ta_transform. rewrite Hc. cbn [bind]. eexists. split; [reflexivity|].
  set (r := rsi c) in *. unfold signals. rewrite <- Hl. split.
  { unfold fillna0. rewrite zipw_length, !map_length, rolling_length, map_length, diff_length, rolling_length. lia. }
  intros i Hi.
  apply (bool_signal (negb (Nat.ltb (i + 1) cp) && forallb (fun j => nth (i + 1 - cp + j) (map (fun x => eltb x (Fin th)) r) false) (seq 0 cp) &&
    match nth_error (diff (rolling mw agg_mean r)) i with Some x => eltb (Fin 0%R) x | None => false end)).
  2:{ rewrite zipw_nth. rewrite <- (map_map (fun x => eltb x (Fin th)) of_bool r). rewrite all_true_spec by (rewrite ?map_length; auto).
      rewrite nth_error_map. destruct (nth_error (diff (rolling mw agg_mean r)) i) eqn:E; [reflexivity|]. exfalso. apply nth_error_None in E. rewrite diff_length, rolling_length in E. lia. }
  rewrite !andb_true_iff, negb_true_iff, forallb_forall.
  assert (Hcur : forall k, k < List.length r -> nth_error (rolling mw agg_mean r) k = Some (match moving_average mw r k with Some m => Fin m | None => NaN end)) by (intros; now apply ma_nth).
  assert (Hd : match nth_error (diff (rolling mw agg_mean r)) i with Some x => eltb (Fin 0%R) x | None => false end = true <->
               exists k a b, i = S k /\ moving_average mw r k = Some a /\ moving_average mw r i = Some b /\ (a < b)%R).
  { unfold diff. rewrite zipw_nth, shift1_nth by (rewrite rolling_length; lia). rewrite (Hcur i Hi). destruct i as [|k].
    - rewrite esub_nan_r. split; [discriminate|]. intros (k & a & b & E & _). discriminate.
    - rewrite (Hcur k) by lia. destruct (moving_average mw r (S k)) as [b|] eqn:Eb, (moving_average mw r k) as [a|] eqn:Ea.
      2-4: split; [discriminate|]; intros (k' & a' & b' & E & E1 & E2 & _); injection E as <-; rewrite ?Ea, ?Eb in *; discriminate.
      unfold esub. cbn [eopp eadd aopp aadd Arith_R]. rewrite eltb_R. split.
      + intros H. exists k, a, b. repeat split; auto. lra.
      + intros (k' & a' & b' & E & E1 & E2 & H). injection E as <-. rewrite Ea in E1. injection E1 as <-. injection E2 as <-. lra. }
  rewrite Hd. clear Hd. split.
  - intros [[H1 H2] H3]. apply Nat.ltb_ge in H1. split; [auto|]. split; [|auto]. intros j Hj. specialize (H2 (j - (i + 1 - cp))).
    rewrite in_seq in H2. specialize (H2 ltac:(lia)). replace (i + 1 - cp + (j - (i + 1 - cp))) with j in H2 by lia.
    destruct (nth_error r j) as [x|] eqn:Ex; [|apply nth_error_None in Ex; lia]. exists x. split; auto. apply below_spec.
    rewrite <- H2. symmetry. apply nth_error_nth. rewrite nth_error_map, Ex. reflexivity.
  - intros (H1 & H2 & H3). split; [split|auto]. { now apply Nat.ltb_ge. }
    intros j Hj. apply in_seq in Hj. destruct (H2 (i + 1 - cp + j) ltac:(lia)) as (x & Ex & Hx). apply below_spec in Hx. rewrite <- Hx. apply nth_error_nth. rewrite nth_error_map, Ex. reflexivity.
Qed.

(** ** Bar arrival *)
Lemma rsum_telescope (t : nat -> R) a k : rsum (map (fun j => t (S (a + j)) - t (a + j)%nat)%R (seq 0 k)) = (t (a + k)%nat - t a)%R.
Proof.
  induction k as [|k IH]; [unfold rsum; cbn; rewrite Nat.add_0_r; lra|]. rewrite seq_S, map_app, rsum_app, IH. unfold rsum. cbn [map fold_right Nat.add].
  replace (a + S k) with (S (a + k)) by lia. lra.
Qed.
Lemma arrivals_vf idx : 1 <= List.length idx ->
  values_from 0 (List.length idx - 1) (fun j => IZR (nth (S j) idx 0%Z) - IZR (nth j idx 0%Z))%R (skipn 1 (diff (map (fun t => Fin (IZR t)) idx))).
Proof.
  intros Hn. assert (V : values_from 0 (List.length idx) (fun i => IZR (nth i idx 0%Z)) (map (fun t => Fin (IZR t)) idx)).
  { split; [apply map_length|]. intros i Hi. rewrite nth_error_map. destruct (nth_error idx i) eqn:E; [|apply nth_error_None in E; lia]. cbn.
    now rewrite (nth_error_nth _ _ _ E). }
  apply vf_diff in V. destruct V as [Vl Vv]. split; [rewrite skipn_length; lia|]. intros i Hi. rewrite nth_error_skipn''. cbn [Nat.add]. rewrite Vv by lia.
  cbn [Nat.ltb Nat.leb]. replace (S i - 1) with i by lia. reflexivity.
Qed.
Lemma arrival_mean idx k i : 1 <= k -> i < List.length idx - 1 ->
  nth_error (rolling k agg_mean (skipn 1 (diff (map (fun t => Fin (IZR t)) idx)))) i =
  Some (if Nat.ltb (S i) k then NaN else Fin (mean_arrival idx k (S i))).
Proof.
  intros Hk Hi. pose proof (arrivals_vf idx ltac:(lia)) as V. apply vf_mean with (w := k) in V; auto. destruct V as [Vl Vv]. rewrite Vv by auto.
  f_equal. destruct (Nat.ltb_spec i (0 + k - 1)), (Nat.ltb_spec (S i) k); auto; try lia. f_equal.
  unfold average, mean_arrival. rewrite trailing_length. f_equal. unfold trailing, rows_up_to. rewrite map_map.
  rewrite (rsum_telescope (fun j => IZR (nth j idx 0%Z)) (i + 1 - k) k). do 3 f_equal; lia.
Qed.
Lemma bar_rsi_rule rsi cfg X c : well_formed X -> 1 <= arr_fast cfg -> 1 <= arr_slow cfg -> max_diff cfg <> 0%Z ->
  lookup "close" X = Some c -> List.length (rsi c) = List.length c ->
  exists out, bar_rsi_predict rsi cfg X = Ok out /\
  signals (List.length (f_index X)) (fun i => arr_fast cfg <= i /\ arr_slow cfg <= i /\
    (exists x, nth_error (rsi c) i = Some x /\ above x (rsi_lower cfg) /\ below x (rsi_upper cfg)) /\
    (arr_lower cfg < (mean_arrival (f_index X) (arr_fast cfg) i - mean_arrival (f_index X) (arr_slow cfg) i) / IZR (max_diff cfg) < arr_upper cfg)%R) out.
Proof.
  intros Hwf Hf Hs Hm Hc Hl. unfold bar_rsi_predict, ta_transform. rewrite Hc. cbn [bind]. eexists. split; [reflexivity|].
  pose proof (lookup_length _ _ _ Hwf Hc) as Hlen. set (idx := f_index X) in *. rewrite map_length.
  assert (Hm' : IZR (max_diff cfg) <> 0%R) by now apply not_0_IZR.
  split.
  { rewrite zipw_length, firstn_length. cbn [List.length]. rewrite !map_length, zipw_length, !rolling_length, skipn_length, diff_length, map_length. lia. }
  intros i Hi. destruct (nth_error (rsi c) i) as [x|] eqn:Ex; [|apply nth_error_None in Ex; lia].
  set (q := fun i => ((mean_arrival idx (arr_fast cfg) i - mean_arrival idx (arr_slow cfg) i) / IZR (max_diff cfg))%R).
  apply (bool_signal (eltb (Fin (rsi_lower cfg)) x && eltb x (Fin (rsi_upper cfg)) &&
    (if Nat.leb (arr_fast cfg) i && Nat.leb (arr_slow cfg) i then eltb (Fin (q i)) (Fin (arr_upper cfg)) && eltb (Fin (arr_lower cfg)) (Fin (q i)) else false))).
  2:{ rewrite zipw_nth, Ex, nth_error_firstn_lt by auto. destruct i as [|i].
      - cbn [nth_error]. destruct (Nat.leb_spec (arr_fast cfg) 0); [lia|]. reflexivity.
      - cbn [nth_error]. rewrite !nth_error_map, zipw_nth, !arrival_mean by lia.
        destruct (Nat.ltb_spec (S i) (arr_fast cfg)), (Nat.ltb_spec (S i) (arr_slow cfg)), (Nat.leb_spec (arr_fast cfg) (S i)), (Nat.leb_spec (arr_slow cfg) (S i)); try lia; try reflexivity.
        cbn [option_map andb]. unfold esub. cbn [eopp eadd aopp aadd Arith_R]. rewrite ediv_fin by auto. reflexivity. }
  rewrite !andb_true_iff, above_spec, below_spec.
  assert (Hq : (if (arr_fast cfg <=? i) && (arr_slow cfg <=? i) then eltb (Fin (q i)) (Fin (arr_upper cfg)) && eltb (Fin (arr_lower cfg)) (Fin (q i)) else false) = true <->
               arr_fast cfg <= i /\ arr_slow cfg <= i /\ (arr_lower cfg < q i < arr_upper cfg)%R).
  { destruct (Nat.leb_spec (arr_fast cfg) i), (Nat.leb_spec (arr_slow cfg) i); cbn [andb]; try (split; [discriminate|intros; lia]).
    rewrite andb_true_iff, !eltb_R. tauto. }
  rewrite Hq. unfold q. split.
  - intros ((Ha & Hb) & H1 & H2 & H3). repeat split; auto; try apply H3. exists x. auto.
  - intros (H1 & H2 & (x' & Ex' & Ha & Hb) & H3). injection Ex' as <-. auto.
Qed.

(** ** MACD *)
Lemma esgn_sign x s : sign_of x s -> esgn (Fin x) = Fin s.
Proof.
  unfold esgn, esign, asign. cbn. intros [[H ->]|[[-> ->]|[H ->]]].
  - destruct (Rlt_dec x 0); [reflexivity|lra].
  - destruct (Rlt_dec 0 0); [lra|]. reflexivity.
  - destruct (Rlt_dec x 0); [lra|]. destruct (Rlt_dec 0 x); [reflexivity|lra].
Qed.
Lemma macd_rule hist name X c : lookup name X = Some c -> List.length (hist c) = List.length c ->
  exists out, macd_crossover hist name X = Ok out /\ List.length out = List.length c /\
  (forall x0, nth_error out 0 = Some x0 -> x0 = NaN) /\
  (forall i x y s t, nth_error (hist c) i = Some (Fin x) -> nth_error (hist c) (S i) = Some (Fin y) -> sign_of x s -> sign_of y t ->
     nth_error out (S i) = Some (Fin ((t - s) / 2)%R)) /\
  (forall i, S i < List.length c -> nth_error (hist c) i = Some NaN \/ nth_error (hist c) (S i) = Some NaN -> nth_error out (S i) = Some NaN).
Proof.
  intros Hc Hl. unfold macd_crossover, ta_transform. rewrite Hc. cbn [bind]. eexists. split; [reflexivity|]. set (r := hist c) in *.
  assert (Hn : forall i, i < List.length r -> nth_error (map (fun x => ediv x (Fin 2%R)) (diff (map esgn r))) i =
     match nth_error r i, (match i with 0 => Some NaN | S j => nth_error (map esgn r) j end) with
     | Some a, Some b => Some (ediv (esub (esgn a) b) (Fin 2%R)) | _, _ => None end).
  { intros i Hi. unfold diff. rewrite nth_error_map, zipw_nth, shift1_nth by (rewrite map_length; auto). rewrite nth_error_map.
    destruct (nth_error r i); cbn [option_map]; [|reflexivity]. now destruct (match i with 0 => Some NaN | S j => nth_error (map esgn r) j end). }
  split; [rewrite map_length, diff_length, map_length; auto|]. split; [|split].
  - intros x0 H. assert (Hi : 0 < List.length r) by (assert (H' : nth_error (map (fun x => ediv x (Fin 2%R)) (diff (map esgn r))) 0 <> None) by congruence; apply nth_error_Some in H'; rewrite map_length, diff_length, map_length in H'; auto).
    rewrite Hn in H by auto. destruct (nth_error r 0); [|discriminate]. rewrite esub_nan_r in H. now injection H as <-.
  - intros i x y s t Hx Hy Hs Ht. assert (S i < List.length r) by (apply nth_error_Some; congruence). rewrite Hn by auto. rewrite Hy, nth_error_map, Hx. cbn [option_map].
    rewrite (esgn_sign x s), (esgn_sign y t) by auto. unfold esub. cbn [eopp eadd aopp aadd Arith_R]. now rewrite ediv_fin by lra.
  - intros i Hi H. rewrite Hn by lia. destruct (nth_error r (S i)) as [y|] eqn:Ey; [|apply nth_error_None in Ey; lia]. rewrite nth_error_map.
    destruct (nth_error r i) as [x|] eqn:Ex; [|apply nth_error_None in Ex; lia]. cbn [option_map]. destruct H as [H|H]; injection H as ->.
    + cbn [esgn]. now rewrite esub_nan_r.
    + now destruct (esgn x).
Qed.

(** ** Memory of the z-scores *)
Lemma z_forgets w k f : 1 <= w -> one_per_row f -> forgets k f -> forgets (k + (w - 1)) (z_score_transform w f).
Proof.
  intros Hw Hr Hf X m HX. specialize (Hf X m HX). unfold z_score_transform. destruct (f X) as [s|] eqn:E, (f (drop m X)) as [s'|] eqn:E'; cbn [bind]; auto.
  refine (proj2 (_ : agree m (k + (w - 1)) _ _)). apply z_agree; auto. split; auto.
  rewrite (Hr _ _ (drop_wf m X HX) E'), (Hr _ _ HX E). cbn [drop f_index]. apply skipn_length.
Qed.
Lemma bar_arrival_forgets : forgets 1 bar_arrival_time.
Proof.
  intros X m Hw. unfold bar_arrival_time. cbn [drop f_index]. rewrite <- skipn_map. refine (proj2 (_ : agree m 1 _ _)). apply (agree_diff m 0). apply agree_skipn.
Qed.
Lemma buy_sell_forgets : forgets 0 buy_sell_diff.
Proof. unfold forgets, buy_sell_diff. forget_tac. apply agree_zipw; apply agree_skipn. Qed.
Lemma avg_buy_forgets : forgets 0 average_buy_size.
Proof. unfold forgets, average_buy_size. forget_tac. apply agree_zipw; apply agree_skipn. Qed.
Lemma high_low_forgets : forgets 0 high_to_low_ratio.
Proof. unfold forgets, high_to_low_ratio. forget_tac. apply agree_zipw; apply agree_skipn. Qed.
Lemma factory_keys key w T : get_transformer key w = Ok T ->
  exists f, T = z_score_transform w f /\ (f = bar_arrival_time \/ f = buy_sell_diff \/ f = average_buy_size \/ f = high_to_low_ratio).
Proof.
  unfold get_transformer, z_score_types. cbn [find fst snd]. repeat (destruct (String.eqb _ key); [intros [= <-]; eexists; split; [reflexivity|]; auto|]). discriminate.
Qed.
Lemma factory_causal key w T : get_transformer key w = Ok T -> no_look_ahead T /\ one_per_row T.
Proof.
  intros H. apply factory_keys in H as (f & -> & [->|[->|[->| ->]]]); split; (apply z_transform_causal || apply z_transform_rows);
    auto using bar_arrival_causal, buy_sell_causal, avg_buy_causal, high_low_causal, bar_arrival_rows, buy_sell_rows, avg_buy_rows, high_low_rows.
Qed.
Lemma forgets_weaken {B} k k' (T : frame -> result (list B)) : k <= k' -> forgets k T -> forgets k' T.
Proof.
  intros Hk H X m HX. specialize (H X m HX). destruct (T X), (T (drop m X)); auto. replace k' with (k + (k' - k)) by lia.
  rewrite Nat.add_assoc, <- (skipn_skipn' _ (k' - k) k), <- (skipn_skipn' _ (k' - k) (m + k)). now rewrite H.
Qed.
Lemma factory_forgets key w T : 1 <= w -> get_transformer key w = Ok T -> forgets w T.
Proof.
  intros Hw H. apply factory_keys in H as (f & -> & [->|[->|[->| ->]]]).
  - replace w with (1 + (w - 1)) at 1 by lia. apply z_forgets; auto using bar_arrival_rows, bar_arrival_forgets.
  - apply (forgets_weaken (0 + (w - 1))); [lia|]. apply z_forgets; auto using buy_sell_rows, buy_sell_forgets.
  - apply (forgets_weaken (0 + (w - 1))); [lia|]. apply z_forgets; auto using avg_buy_rows, avg_buy_forgets.
  - apply (forgets_weaken (0 + (w - 1))); [lia|]. apply z_forgets; auto using high_low_rows, high_low_forgets.
Qed.
Lemma factory_unknown key w : ~ In key ["bar_arrival_time"; "buy_sell_diff"; "average_buy_size"; "high_to_low_ratio"]%string -> get_transformer key w = Err KeyError.
Proof.
  intros H. unfold get_transformer, z_score_types. cbn [find fst snd].
  repeat (match goal with |- context [String.eqb ?a key] => destruct (String.eqb_spec a key); [exfalso; apply H; subst; cbn; tauto|] end). reflexivity.
Qed.

(** ** The z-score bound is attained *)
Lemma rsum_repeat k n : rsum (repeat k n) = (INR n * k)%R.
Proof.
  induction n as [|n IH]; [unfold rsum; cbn; lra|]. cbn [repeat]. unfold rsum in *. cbn [fold_right]. rewrite IH, S_INR. lra.
Qed.
Lemma c42_attained w : 2 <= w -> exists l, List.length l = w /\ nth_error (calc_z_score w l) (w - 1) = Some (Fin ((INR w - 1) / sqrt (INR w))%R).
Proof.
  intros Hw. set (v := (repeat 0%R (w - 1) ++ [1%R])). assert (Hlen : List.length v = w) by (unfold v; rewrite app_length, repeat_length; cbn; lia).
  exists (map Fin v). split; [now rewrite map_length|]. destruct (c42 w (map Fin v) (w - 1) Hw) as (z & Ez & H); [rewrite map_length; lia|].
  rewrite Ez. f_equal. clear Ez.
  assert (El : last_values w (map Fin v) (w - 1) = Some v).
  { pose proof (vf_fin v) as V. rewrite (vf_last 0 _ (row v) (map Fin v) w (w - 1) V) by lia. destruct (Nat.ltb_spec (w - 1) (0 + w - 1)); [lia|]. f_equal.
    unfold trailing, rows_up_to. replace (w - 1 + 1 - w) with 0 by lia. cbn [Nat.add]. rewrite map_id. apply list_ext. intros i.
    rewrite nth_error_map. destruct (Nat.lt_ge_cases i w) as [Hi|Hi].
    - rewrite nth_error_seq_lt by auto. cbn. symmetry. apply nth_error_nth'. lia.
    - rewrite (proj2 (nth_error_None (seq 0 w) i)) by (rewrite seq_length; auto). cbn. symmetry. apply nth_error_None. lia. }
  rewrite El in H. assert (HW : (2 <= INR w)%R) by (apply le_INR in Hw; exact Hw).
  destruct H as [[[x Hx] _]|[_ (s & -> & -> & _)]].
  { exfalso. assert (0 = x)%R by (apply Hx; unfold v; apply in_or_app; left; replace (w - 1) with (S (w - 2)) by lia; now left).
    assert (1 = x)%R by (apply Hx; unfold v; apply in_or_app; right; now left). lra. }
  f_equal. assert (Hl1 : last v 0%R = 1%R) by (unfold v; apply last_last). rewrite Hl1.
  assert (Ha : average v = (1 / INR w)%R). { unfold average. rewrite Hlen. unfold v. rewrite rsum_app, rsum_repeat. unfold rsum. cbn. field. lra. }
  unfold sample_sd, deviation_sum. rewrite Ha, Hlen. unfold v. rewrite map_app, rsum_app.
  rewrite (map_ext_in _ (fun _ => (1 / INR w) * (1 / INR w))%R).
  2:{ intros y Hy. apply repeat_spec in Hy. subst y. ring. }
  rewrite rsum_const, repeat_length, minus_INR by lia. change (INR 1) with 1%R. cbn [map]. unfold rsum. cbn [fold_right].
  replace (((INR w - 1) * (1 / INR w * (1 / INR w)) + ((1 - 1 / INR w) * (1 - 1 / INR w) + 0)) / (INR w - 1))%R with (/ INR w)%R by (field; lra).
  rewrite <- inv_sqrt_depr by lra || rewrite sqrt_inv.
  assert (Hs : (0 < sqrt (INR w))%R) by (apply sqrt_lt_R0; lra). assert (Hss : (sqrt (INR w) * sqrt (INR w) = INR w)%R) by (apply sqrt_sqrt; lra).
  set (q := sqrt (INR w)) in *. rewrite <- Hss. field. lra.
Qed.
