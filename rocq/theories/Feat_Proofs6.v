(** Proofs: signs of the microstructural estimators, VPIN, rule-based predictors. *)
From Coq Require Import Reals Lra Lia ZArith String.
From Verif Require Import PreludeFacts Series DailyVol_Model Feat_Model Feat_Spec Feat_Proofs Feat_Proofs2 Feat_Proofs3 Feat_Proofs4 Feat_Proofs5.
Local Open Scope nat_scope.

(** ** Not negative *)
Lemma nn_nan : not_negative NaN. Proof. now left. Qed.
Lemma nn_fin v : (0 <= v)%R -> not_negative (Fin v). Proof. right. right. eauto. Qed.
Lemma nn_zero : not_negative (Fin 0%R). Proof. apply nn_fin. lra. Qed.
Lemma nn_pinf : not_negative PInf. Proof. right. now left. Qed.
#[local] Hint Resolve nn_nan nn_fin nn_zero nn_pinf : nn.
Lemma nn_finite_vals l : Forall not_negative l -> forall v, In v (finite_vals l) -> (0 <= v)%R.
Proof.
  intros H v Hv. unfold finite_vals in Hv. apply in_flat_map in Hv as (x & Hx & Hv). destruct x; cbn in Hv; try easy. destruct Hv as [<-|[]].
  rewrite Forall_forall in H. destruct (H _ Hx) as [E|[E|(u & E & Hu)]]; try discriminate. now injection E as ->.
Qed.
Lemma in_slice {A} (x : A) a b l : In x (slice a b l) -> In x l.
Proof.
  intros H. unfold slice in H. rewrite <- (firstn_skipn a l). apply in_or_app. right. rewrite <- (firstn_skipn (b - a) (skipn a l)). apply in_or_app. now left.
Qed.
Lemma nn_slice a b (l : list (ext R)) : Forall not_negative l -> Forall not_negative (slice a b l).
Proof. intros H. rewrite Forall_forall in *. intros x Hx. eapply H, in_slice, Hx. Qed.
Lemma nn_mean v : (forall x, In x v -> (0 <= x)%R) -> not_negative (agg_mean v).
Proof.
  intros H. rewrite mean_average. destruct v as [|x v]; auto with nn. apply nn_fin. unfold average. apply div_nonneg; [now apply rsum_nonneg|].
  apply lt_0_INR. cbn. lia.
Qed.
Lemma nn_sum v : (forall x, In x v -> (0 <= x)%R) -> not_negative (agg_sum v).
Proof. intros H. apply nn_fin. now apply rsum_nonneg. Qed.
Lemma nn_rolling w agg l : (forall v, (forall x, In x v -> (0 <= x)%R) -> not_negative (agg v)) -> Forall not_negative l -> Forall not_negative (rolling w agg l).
Proof.
  intros Ha H. rewrite Forall_forall. intros x Hx. unfold rolling in Hx. apply in_map_iff in Hx as (i & <- & _). cbv zeta.
  destruct (Nat.leb w _); auto with nn. apply Ha. apply nn_finite_vals. now apply nn_slice.
Qed.
Lemma nn_map {A} (f : A -> ext R) l : (forall x, In x l -> not_negative (f x)) -> Forall not_negative (map f l).
Proof. intros H. rewrite Forall_forall. intros x Hx. apply in_map_iff in Hx as (y & <- & Hy). auto. Qed.
Lemma nn_zipw {A B} (f : A -> B -> ext R) x y : (forall a b, In a x -> In b y -> not_negative (f a b)) -> Forall not_negative (zipw f x y).
Proof. intros H. unfold zipw. apply nn_map. intros [a b] Hp. apply H; [eapply in_combine_l|eapply in_combine_r]; eauto. Qed.
Lemma nn_abs x : not_negative (eabs x).
Proof. destruct x; try (cbn; auto with nn; fail). rewrite (eabs_fin a). apply nn_fin, Rabs_pos. Qed.
Lemma nn_square x : not_negative (esquare x).
Proof. destruct x; cbn; auto with nn. apply nn_fin. apply Rle_0_sqr. Qed.
Lemma nn_sqrt x : not_negative (esqrt x).
Proof. destruct x; cbn; auto with nn. destruct (Rlt_dec a 0); auto with nn. apply nn_fin, sqrt_pos. Qed.
Lemma nn_div a b : not_negative a -> not_negative b -> not_negative (ediv a b).
Proof.
  intros [->|[->|(u & -> & Hu)]] [->|[->|(v & -> & Hv)]]; cbn; auto with nn.
  - unfold asign. cbn. destruct (Rlt_dec v 0); [lra|]. destruct (Rlt_dec 0 v); auto with nn.
  - destruct (Req_EM_T v 0).
    + unfold asign. cbn. destruct (Rlt_dec u 0); [lra|]. destruct (Rlt_dec 0 u); cbn; auto with nn.
    + apply nn_fin. apply (div_nonneg u v); lra.
Qed.
Lemma nn_scale k a : (0 < k)%R -> not_negative a -> not_negative (emul (Fin k) a).
Proof.
  intros Hk [->|[->|(u & -> & Hu)]]; cbn; auto with nn.
  - unfold asign. cbn. destruct (Rlt_dec k 0); [lra|]. destruct (Rlt_dec 0 k); cbn; auto with nn.
  - apply nn_fin. apply Rmult_le_pos; lra.
Qed.
Lemma nn_zeroed x : not_negative (set_negative_to_zero x).
Proof.
  destruct x; cbn; auto with nn. unfold set_negative_to_zero. cbn. destruct (Rlt_dec a 0); auto with nn. apply nn_fin. lra.
Qed.

Ltac open H := repeat match type of H with
  | bind (check_missing_columns ?X ?ns) _ = Ok _ => destruct (check_missing_columns X ns) as [[]|]; cbn [bind] in H; [|discriminate H]
  | bind (column ?n ?X) _ = Ok _ => let E := fresh "E" in let c := fresh "c" in
      destruct (column n X) as [c|] eqn:E; cbn [bind] in H; [|discriminate H]; unfold column in E; destruct (lookup n X) eqn:?; [injection E as ->|discriminate E]
  end.

Lemma roll_nn w cn X out : roll_measure w cn X = Ok out -> Forall not_negative out.
Proof.
  intros H. unfold roll_measure in H. open H. injection H as <-. apply nn_map. intros x _. apply nn_scale; [lra|apply nn_sqrt].
Qed.
Lemma impact_nn w cn vn X out : volumes_not_negative X vn -> roll_impact w cn vn X = Ok out -> Forall not_negative out.
Proof.
  intros Hv H. unfold roll_impact in H. destruct (roll_measure w cn X) as [m|] eqn:Em; cbn [bind] in H; [|discriminate]. open H. injection H as <-.
  apply roll_nn in Em. pose proof (Hv _ Heqo) as Hc. rewrite Forall_forall in Em, Hc. apply nn_zipw. intros a b Ha Hb. apply nn_div; auto.
Qed.
Lemma parkinson_nn w hn ln' X out : parkinson w hn ln' X = Ok out -> Forall not_negative out.
Proof.
  intros H. unfold parkinson in H. open H. injection H as <-. apply nn_rolling; [apply nn_mean|]. apply nn_map. intros x _. apply nn_scale; [|apply nn_square].
  pose proof ln_lt_2. apply Rdiv_lt_0_compat; lra.
Qed.
Lemma beckers_nn w hn ln' X out : beckers_parkinson w hn ln' X = Ok out -> Forall not_negative out.
Proof. intros H. unfold beckers_parkinson in H. open H. injection H as <-. apply nn_map. intros. apply nn_zeroed. Qed.
Lemma kyle_nn w cn vn X out : volumes_not_negative X vn -> kyle_lambda w cn vn X = Ok out -> Forall not_negative out.
Proof.
  intros Hv H. unfold kyle_lambda in H. open H. injection H as <-. apply nn_rolling; [apply nn_mean|]. apply nn_zipw. intros a b Ha Hb.
  pose proof (Hv _ Heqo0) as Hc. rewrite Forall_forall in Hc. apply in_map_iff in Ha as (x & <- & _). apply nn_div; auto. apply nn_abs.
Qed.
Lemma amihud_nn w cn vn X out : volumes_not_negative X vn -> amihud_lambda w cn vn X = Ok out -> Forall not_negative out.
Proof.
  intros Hv H. unfold amihud_lambda in H. open H. injection H as <-. apply nn_rolling; [apply nn_mean|]. apply nn_zipw. intros a b Ha Hb.
  pose proof (Hv _ Heqo0) as Hc. rewrite Forall_forall in Hc. apply in_map_iff in Ha as (x & <- & _). apply nn_div; auto. apply nn_abs.
Qed.
Lemma hasbrouck_nn w cn vn X out : hasbrouck_lambda w cn vn X = Ok out -> Forall not_negative out.
Proof.
  intros H. unfold hasbrouck_lambda in H. open H. injection H as <-. apply nn_rolling; [apply nn_mean|]. apply nn_zipw. intros a b Ha Hb.
  apply in_map_iff in Ha as (x & <- & _). apply in_map_iff in Hb as (y & <- & _). apply nn_div; [apply nn_abs|apply nn_sqrt].
Qed.
Lemma roll_agg_fin w agg l x : (forall v, agg v = NaN \/ exists r, agg v = Fin r) -> In x (rolling w agg l) -> x = NaN \/ exists r, x = Fin r.
Proof.
  intros Ha Hx. unfold rolling in Hx. apply in_map_iff in Hx as (i & <- & _). cbv zeta. destruct (Nat.leb w _); auto.
Qed.
Lemma corwin_range w hn ln' X out : corwin_schultz w hn ln' X = Ok out -> Forall (fun x => x = NaN \/ exists v, x = Fin v /\ (0 <= v < 2)%R) out.
Proof.
  intros H. unfold corwin_schultz in H. open H. injection H as <-. rewrite Forall_forall. intros x Hx. apply in_map_iff in Hx as (a & <- & Ha).
  unfold get_alpha in Ha. apply in_map_iff in Ha as (d & <- & Hd). unfold zipw in Hd. apply in_map_iff in Hd as ([p q] & <- & Hp). cbn [fst snd].
  apply in_combine_l in Hp as Hl. apply in_combine_r in Hp as Hr. apply in_map_iff in Hl as (b & <- & Hb). apply in_map_iff in Hr as (g & <- & Hg).
  assert (Hb' : b = NaN \/ exists r, b = Fin r). { eapply roll_agg_fin; [|exact Hb]. intros v. rewrite mean_average. destruct v; eauto. }
  assert (Hgn : not_negative g). { unfold get_gamma in Hg. apply in_map_iff in Hg as (y & <- & _). apply nn_square. }
  pose proof den_pos as Hden.
  assert (Hq : not_negative (epow_half (ediv g (Fin den_cs)))).
  { destruct Hgn as [->|[->|(u & -> & Hu)]]; cbn; auto with nn.
    - unfold asign. cbn. destruct (Rlt_dec den_cs 0); [lra|]. destruct (Rlt_dec 0 den_cs); cbn; auto with nn.
    - destruct (Req_EM_T den_cs 0); [lra|]. cbn [epow_half]. apply nn_sqrt. }
  assert (Hp' : let t := ediv (emul (Fin (sqrt 2 - 1)%R) (epow_half b)) (Fin den_cs) in t = NaN \/ exists r, t = Fin r).
  { cbv zeta. destruct Hb' as [->|[r ->]]; [now left|]. cbn [epow_half]. unfold esqrt. destruct (Rlt_dec r 0); [now left|]. cbn [emul]. rewrite ediv_fin by lra. right. eauto. }
  cbv zeta in Hp'. set (t := ediv (emul _ _) _) in *. clearbody t. set (q := epow_half (ediv g _)) in *. clearbody q.
  assert (Hal : forall al, (0 <= al)%R -> exists v, ediv (emul (Fin 2%R) (esub (eexp (Fin al)) (Fin 1%R))) (eadd (Fin 1%R) (eexp (Fin al))) = Fin v /\ (0 <= v < 2)%R).
  { intros al Hal. cbn [eexp]. unfold esub. cbn [eopp eadd aopp aadd emul amul Arith_R]. pose proof (exp_pos al). rewrite ediv_fin by lra.
    eexists. split; [reflexivity|]. assert (1 <= exp al)%R. { rewrite <- exp_0. destruct Hal as [Hal|<-]; [|lra]. left. now apply exp_increasing. }
    split; [apply div_nonneg; lra|]. apply (Rmult_lt_reg_r (1 + exp al)); [lra|]. unfold Rdiv. rewrite Rmult_assoc, Rinv_l by lra. lra. }
  destruct Hp' as [->|[r ->]]; [now left|]. destruct Hq as [->|[->|(u & -> & Hu)]]; [now left| |]; right.
  - change (esub (Fin r) PInf) with (NInf (A := R)). unfold set_negative_to_zero. cbn [eltb]. apply Hal. lra.
  - unfold esub. cbn [eopp eadd aopp aadd Arith_R]. rewrite zero_neg. apply Hal. apply Rmax_l.
Qed.

(** ** VPIN *)
Lemma fill_nth w (l : list (ext R)) i : nth_error (firstn w l ++ map (fun x => if is_nan x then Fin 0%R else x) (skipn w l)) i =
  option_map (fun x => if Nat.ltb i w then x else if is_nan x then Fin 0%R else x) (nth_error l i).
Proof.
  destruct (Nat.ltb_spec i w).
  - destruct (Nat.lt_ge_cases i (List.length l)) as [Hi|Hi].
    + rewrite nth_error_app1 by (rewrite firstn_length; lia). rewrite nth_error_firstn_lt by auto. now destruct (nth_error l i).
    + transitivity (@None (ext R)); [|symmetry; rewrite (proj2 (nth_error_None l i)) by auto; reflexivity]. apply nth_error_None.
      rewrite app_length, map_length, firstn_length, skipn_length. lia.
  - destruct (Nat.lt_ge_cases (List.length l) w) as [Hl|Hl].
    + transitivity (@None (ext R)); [|symmetry; rewrite (proj2 (nth_error_None l i)) by lia; reflexivity]. apply nth_error_None.
      rewrite app_length, map_length, firstn_length, skipn_length. lia.
    + rewrite nth_error_app2 by (rewrite firstn_length; lia). rewrite firstn_length, nth_error_map, nth_error_skipn''. do 2 f_equal. lia.
Qed.
Lemma no_nan_left w (l : list (ext R)) : existsb is_nan (skipn w (firstn w l ++ map (fun x => if is_nan x then Fin 0%R else x) (skipn w l))) = false.
Proof.
  rewrite skipn_app, skipn_firstn_comm, Nat.sub_diag. cbn [firstn app]. destruct (existsb is_nan _) eqn:E; auto. apply existsb_exists in E as (x & Hx & Hn). exfalso.
  assert (In x (map (fun x => if is_nan x then Fin 0%R else x) (skipn w l))) as Hin.
  { rewrite <- (firstn_skipn (w - List.length (firstn w l)) (map _ _)). apply in_or_app. now right. }
  apply in_map_iff in Hin as (y & <- & _). destruct (is_nan y) eqn:Ey; [discriminate|congruence].
Qed.
Lemma in_trailing w g i x : In x (trailing w g i) -> exists j, i + 1 - w <= j < i + 1 - w + w /\ x = g j.
Proof.
  unfold trailing, rows_up_to. rewrite map_map. intros H. apply in_map_iff in H as (j & <- & Hj). apply in_seq in Hj. exists (i + 1 - w + j). split; [lia|reflexivity].
Qed.
Lemma c41 w X vn bn sn v b s : 1 <= w -> has_column X vn v -> has_column X bn b -> has_column X sn s ->
  List.length b = List.length v -> List.length s = List.length v -> Forall (fun x => 0 <= x)%R b -> Forall (fun x => 0 <= x)%R s ->
  (forall i, i < List.length v -> row v i = (row b i + row s i)%R) ->
  exists out, vpin w vn bn sn X = Ok out /\ List.length out = List.length v /\ forall i, i < List.length v ->
    let total := rsum (trailing w (row v) i) in let imbalance := rsum (trailing w (fun j => Rabs (row b j - row s j)) i) in
    exists y, nth_error out i = Some y /\
      (i + 1 < w -> y = NaN) /\
      (w <= i + 1 -> total = 0%R -> y = if Nat.eqb i (w - 1) then NaN else Fin 0%R) /\
      (w <= i + 1 -> total <> 0%R -> exists q, y = Fin q /\ q = (imbalance / total)%R /\ (0 <= q <= 1)%R).
Proof.
  intros Hw Hv Hb Hs Lb Ls Pb Ps Hadd. unfold vpin. unfold has_column in *. present. unfold column. rewrite Hv, Hb, Hs. cbn [bind].
  rewrite no_nan_left. cbn [raise_if bind]. eexists. split; [reflexivity|].
  set (n := List.length v) in *.
  assert (Vt : values_from (w - 1) n (fun i => rsum (trailing w (row v) i)) (rolling w agg_sum (map Fin v))).
  { apply (vf_from (0 + w - 1)); [lia|]. apply (vf_rolling 0 n (row v) _ w agg_sum rsum); [apply vf_fin|auto|reflexivity]. }
  assert (Vd : values_from (w - 1) n (fun i => rsum (trailing w (fun j => Rabs (row b j - row s j)) i)) (rolling w agg_sum (map eabs (zipw esub (map Fin b) (map Fin s))))).
  { apply (vf_from (0 + w - 1)); [lia|]. apply (vf_rolling 0 n (fun j => Rabs (row b j - row s j)) _ w agg_sum rsum); [|auto|reflexivity].
    apply (vf_from (Nat.max 0 0)); [reflexivity|].
    eapply vf_map; [eapply vf_zipw; [rewrite <- Lb; apply vf_fin|rewrite <- Ls; apply vf_fin|reflexivity|apply esub_nan_r|intros i Hi; reflexivity]|reflexivity|].
    intros i Hi. apply eabs_fin. }
  destruct Vt as [Lt Vt], Vd as [Ld Vd]. split.
  { rewrite app_length, map_length, firstn_length, skipn_length, zipw_length. lia. }
  intros i Hi. cbv zeta. rewrite fill_nth, zipw_nth, (Vt i Hi), (Vd i Hi). cbn [option_map]. eexists. split; [reflexivity|].
  set (tot := rsum (trailing w (row v) i)). set (imb := rsum (trailing w _ i)).
  assert (P0 : forall j, i + 1 - w <= j < i + 1 - w + w -> w <= i + 1 -> (0 <= row b j)%R /\ (0 <= row s j)%R).
  { intros j Hj Hwi. rewrite Forall_forall in Pb, Ps. split; [apply Pb|apply Ps]; apply nth_In; lia. }
  assert (Hbound : w <= i + 1 -> (0 <= imb <= tot)%R).
  { intros Hwi. split.
    - apply rsum_nonneg. intros x Hx. apply in_trailing in Hx as (j & _ & ->). apply Rabs_pos.
    - unfold imb, tot, trailing, rows_up_to. rewrite !map_map. apply rsum_le. intros j Hj. apply in_seq in Hj. rewrite Hadd by lia.
      destruct (P0 (i + 1 - w + j)) as [Q1 Q2]; [lia|auto|]. apply Rabs_le. lra. }
  destruct (Nat.ltb_spec i (w - 1)) as [Hlt|Hge].
  - destruct (Nat.ltb_spec i w); [|lia]. split; [reflexivity|]. split; intros; lia.
  - specialize (Hbound ltac:(lia)). split; [lia|]. split.
    + intros _ Et. assert (Ei : imb = 0%R) by lra. rewrite Ei, Et.
      assert (ediv (Fin 0%R) (Fin 0%R) = NaN) as ->.
      { cbn. destruct (Req_EM_T 0 0); [|lra]. unfold asign. cbn. destruct (Rlt_dec 0 0); [lra|]. reflexivity. }
      cbn [is_nan].
      destruct (Nat.ltb_spec i w), (Nat.eqb_spec i (w - 1)); auto; lia.
    + intros _ Et. rewrite ediv_fin by auto. cbn [is_nan]. exists (imb / tot)%R. split; [now destruct (Nat.ltb i w)|]. split; [reflexivity|].
      split; [apply div_nonneg; lra|]. apply (Rmult_le_reg_r tot); [lra|]. unfold Rdiv. rewrite Rmult_assoc, Rinv_l by lra. lra.
Qed.

(** ** One-hot probabilities *)
Lemma one_hot_certain classes p : NoDup classes -> Forall (fun x => exists c, In c classes /\ x = Fin c) p -> Forall2 (certain classes) p (one_hot classes p).
Proof.
  intros Hd H. unfold one_hot. induction H as [|x p (c & Hc & ->) H IH]; cbn [map]; constructor; auto.
  apply In_nth_error in Hc as (k & Hk). exists k, c. split; [auto|]. split; [auto|]. split; [apply map_length|].
  intros j Hj. rewrite nth_error_map. destruct (nth_error classes j) as [d|] eqn:Ed; [|apply nth_error_None in Ed; lia]. cbn.
  destruct (Nat.eqb_spec j k) as [->|Hne].
  - rewrite Hk in Ed. injection Ed as ->. destruct (Req_EM_T d d); [reflexivity|lra].
  - destruct (Req_EM_T c d) as [->|]; [|reflexivity]. exfalso. apply Hne. rewrite NoDup_nth_error in Hd. apply Hd; auto. congruence.
Qed.
Lemma nodup3 : NoDup [(-1)%R; 0%R; 1%R].
Proof. repeat constructor; cbn; intros H; repeat destruct H as [H|H]; try lra; auto. Qed.
Lemma nodup2 : NoDup [0%R; 1%R].
Proof. repeat constructor; cbn; intros H; repeat destruct H as [H|H]; try lra; auto. Qed.
Definition side_or_missing (x : ext R) : Prop := x = NaN \/ exists c, In c [(-1)%R; 0%R; 1%R] /\ x = Fin c.
Lemma loc_set_sides idx labels c l : In c [(-1)%R; 0%R; 1%R] -> Forall side_or_missing l -> Forall side_or_missing (loc_set idx labels (Fin c) l).
Proof.
  intros Hc H. unfold loc_set, zipw. rewrite Forall_forall in *. intros x Hx. apply in_map_iff in Hx as ([t y] & <- & Hp). cbn [fst snd].
  destruct (existsb _ _); [right; eauto|]. apply H. eapply in_combine_r; eauto.
Qed.
Lemma ffill_sides l : forall a, side_or_missing a -> Forall side_or_missing l -> Forall side_or_missing (ffill_from a l).
Proof.
  induction l as [|x l IH]; intros a Ha H; cbn [ffill_from]; [constructor|]. inversion_clear H as [|? ? Hx Hl]. cbv zeta. constructor.
  - now destruct (is_nan x).
  - apply IH; auto. now destruct (is_nan x).
Qed.
Lemma fillna0_sides l : Forall side_or_missing l -> Forall (fun x => exists c, In c [(-1)%R; 0%R; 1%R] /\ x = Fin c) (fillna0 l).
Proof.
  intros H. unfold fillna0. rewrite Forall_forall in *. intros x Hx. apply in_map_iff in Hx as (y & <- & Hy).
  destruct (H y Hy) as [->|(c & Hc & ->)]; cbn [is_nan]; [|eauto]. exists 0%R. cbn. auto.
Qed.
Lemma ma_sides fast slow fill name X out : ma_crossover fast slow fill name X = Ok out -> Forall (fun x => exists c, In c [(-1)%R; 0%R; 1%R] /\ x = Fin c) out.
Proof.
  intros H. unfold ma_crossover in H. destruct (column name X); cbn [bind] in H; [|discriminate]. injection H as <-.
  apply fillna0_sides, ffill_sides; [now left|]. apply loc_set_sides; [cbn; auto|]. apply loc_set_sides; [cbn; auto|].
  rewrite Forall_forall. intros x Hx. apply in_map_iff in Hx as (t & <- & _). destruct fill; [now left|right]. exists 0%R. cbn. auto.
Qed.
Lemma c60_ma fast slow fill name : certain_rows [(-1)%R; 0%R; 1%R] (ma_predict fast slow fill name) (ma_predict_proba fast slow fill name).
Proof.
  intros X. unfold ma_predict_proba, ma_predict. destruct (ma_crossover fast slow fill name X) as [p|e] eqn:E; cbn [bind]; [|reflexivity].
  apply one_hot_certain; [apply nodup3|]. eapply ma_sides, E.
Qed.
Lemma three_way (b1 b2 : bool) : exists c, In c [(-1)%R; 0%R; 1%R] /\ (if b1 then Fin 1%R else if b2 then Fin (-1)%R else Fin 0%R) = Fin c.
Proof. destruct b1; [exists 1%R|destruct b2; [exists (-1)%R|exists 0%R]]; (split; [cbn; auto|reflexivity]). Qed.
Lemma c60_mean ema threshold : certain_rows [(-1)%R; 0%R; 1%R] (mean_reversion_predict ema threshold) (mean_reversion_predict_proba ema threshold).
Proof.
  intros X. unfold mean_reversion_predict_proba. destruct (mean_reversion_predict ema threshold X) as [p|e] eqn:E; cbn [bind]; [|reflexivity].
  apply one_hot_certain; [apply nodup3|]. unfold mean_reversion_predict in E. destruct (ta_transform ema "close" X); cbn [bind] in E; [|discriminate].
  destruct (column "close" X); cbn [bind] in E; [|discriminate]. injection E as <-. rewrite Forall_forall. intros x Hx. apply in_map_iff in Hx as (y & <- & _).
  apply three_way.
Qed.
Lemma of_bool_class b : exists c, In c [0%R; 1%R] /\ of_bool b = Fin c.
Proof. destruct b; [exists 1%R|exists 0%R]; cbn; auto. Qed.
Lemma zipw_of_bool {A B} (f : A -> B -> bool) x y : Forall (fun e => exists c, In c [0%R; 1%R] /\ e = Fin c) (zipw (fun a b => of_bool (f a b)) x y).
Proof. rewrite Forall_forall. intros e He. unfold zipw in He. apply in_map_iff in He as (p & <- & _). apply of_bool_class. Qed.
Ltac ok_inv E := match type of E with Ok ?y = Ok ?z => let H := fresh in assert (H : z = y) by congruence; rewrite H; clear H E end.
Lemma c60_bar rsi cfg : certain_rows [0%R; 1%R] (bar_rsi_predict rsi cfg) (bar_rsi_predict_proba rsi cfg).
Proof.
  intros X. unfold bar_rsi_predict_proba. destruct (bar_rsi_predict rsi cfg X) as [p|e] eqn:E; cbn [bind]; [|reflexivity].
  apply one_hot_certain; [apply nodup2|]. unfold bar_rsi_predict in E. destruct (ta_transform rsi "close" X); cbn [bind] in E; [|discriminate].
  ok_inv E. apply (zipw_of_bool (fun x b => eltb (Fin (rsi_lower cfg)) x && eltb x (Fin (rsi_upper cfg)) && b)).
Qed.
Lemma c60_conf rsi th cp mw : certain_rows [0%R; 1%R] (rsi_confirmation_predict rsi th cp mw) (rsi_confirmation_predict_proba rsi th cp mw).
Proof.
  intros X. unfold rsi_confirmation_predict_proba. destruct (rsi_confirmation_predict rsi th cp mw X) as [p|e] eqn:E; cbn [bind]; [|reflexivity].
  apply one_hot_certain; [apply nodup2|]. unfold rsi_confirmation_predict in E. destruct (ta_transform rsi "close" X); cbn [bind] in E; [|discriminate].
  ok_inv E. apply (zipw_of_bool andb).
Qed.
