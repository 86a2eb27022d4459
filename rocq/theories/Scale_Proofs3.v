(** What a change of the unit of the prices does to the features and to the signals of the rule-based strategies. *)
From Coq Require Import Reals Lra Lia String.
From Verif Require Import PreludeFacts Series DailyVol_Model Feat_Model Scale_Spec Scale_Spec2 Scale_Proofs.
Local Open Scope nat_scope.

Section Units.
  Variable c : R.
  Hypothesis Hc : (0 < c)%R.

  (** ** Single values *)
  Lemma Rltb_units (x y : R) : altb (c * x)%R (c * y)%R = altb x y.
  Proof.
    cbn. destruct (Rlt_dec x y) as [H|H]; destruct (Rlt_dec (c * x) (c * y)) as [H'|H']; auto.
    - exfalso. apply H'. now apply Rmult_lt_compat_l.
    - exfalso. apply H. now apply (Rmult_lt_reg_l c).
  Qed.
  Lemma Reqb_units (x y : R) : aeqb (c * x)%R (c * y)%R = aeqb x y.
  Proof.
    cbn. destruct (Req_EM_T x y) as [->|H]; destruct (Req_EM_T (c * _) (c * _)) as [H'|H']; auto; try congruence.
    exfalso. apply H. apply (Rmult_eq_reg_l c); [exact H'|lra].
  Qed.
  Lemma eltb_units x y : eltb (in_units c x) (in_units c y) = eltb x y.
  Proof. destruct x, y; try reflexivity. apply Rltb_units. Qed.
  Lemma eeqb_units x y : eeqb (in_units c x) (in_units c y) = eeqb x y.
  Proof. destruct x, y; try reflexivity. apply Reqb_units. Qed.
  Lemma eleb_units x y : eleb (in_units c x) (in_units c y) = eleb x y.
  Proof. unfold eleb. now rewrite eltb_units, eeqb_units. Qed.
  Lemma esub_units x y : esub (in_units c x) (in_units c y) = in_units c (esub x y).
  Proof. destruct x, y; try reflexivity. cbn. f_equal. ring. Qed.
  Lemma eabs_units x : eabs (in_units c x) = in_units c (eabs x).
  Proof.
    destruct x as [v| | |]; try reflexivity. cbn. destruct (Rlt_dec v 0) as [H|H]; destruct (Rlt_dec (c * v) 0) as [H'|H']; cbn; f_equal; try ring.
    - exfalso. apply H'. replace 0%R with (c * 0)%R by ring. now apply Rmult_lt_compat_l.
    - exfalso. apply H. apply (Rmult_lt_reg_l c); [exact Hc|lra].
  Qed.
  Lemma ediv_units_l x y : ediv (in_units c x) y = in_units c (ediv x y).
  Proof.
    destruct x as [x| | |], y as [y| | |]; cbn; auto; try (f_equal; ring).
    - destruct (Req_EM_T y 0) as [->|H]; [rewrite asign_units by exact Hc; destruct (asign x); reflexivity|]. cbn. f_equal. unfold adiv. cbn. field. exact H.
    - destruct (asign y); cbn; try reflexivity; try (destruct (Req_EM_T y 0)); reflexivity.
    - destruct (asign y); cbn; try reflexivity; try (destruct (Req_EM_T y 0)); reflexivity.
  Qed.

  (** ** Series *)
  Lemma zipw_mono {A B} (f : ext R -> ext R -> B) (g : B -> A) (h : ext R -> ext R -> A) u v :
    (forall x y, h (in_units c x) (in_units c y) = g (f x y)) -> zipw h (map (in_units c) u) (map (in_units c) v) = map g (zipw f u v).
  Proof. intros H. unfold zipw. revert v. induction u as [|x u IH]; intros [|y v]; cbn; auto. now rewrite H, IH. Qed.
  Lemma zipw_same {B} (f : ext R -> ext R -> B) u v :
    (forall x y, f (in_units c x) (in_units c y) = f x y) -> zipw f (map (in_units c) u) (map (in_units c) v) = zipw f u v.
  Proof. intros H. rewrite (zipw_mono f (fun b => b)) by exact H. apply map_id. Qed.
  Lemma zipw_div_l u v : zipw ediv (map (in_units c) u) v = map (in_units c) (zipw ediv u v).
  Proof. unfold zipw. revert v. induction u as [|x u IH]; intros [|y v]; cbn; auto. now rewrite ediv_units_l, IH. Qed.
  Lemma shift1_units l : shift1 (map (in_units c) l) = map (in_units c) (shift1 l).
  Proof. unfold shift1. rewrite map_length, <- firstn_map. reflexivity. Qed.
  Lemma diff_units l : diff (map (in_units c) l) = map (in_units c) (diff l).
  Proof. unfold diff. rewrite shift1_units. apply zipw_mono, esub_units. Qed.
  Lemma map_abs_units l : map eabs (map (in_units c) l) = map (in_units c) (map eabs l).
  Proof. rewrite !map_map. apply map_ext, eabs_units. Qed.

  (** ** Windows *)
  Lemma finite_vals_units l : finite_vals (map (in_units c) l) = map (Rmult c) (finite_vals l).
  Proof. induction l as [|x l IH]; [reflexivity|]. unfold finite_vals in *. cbn [map flat_map]. rewrite IH. destruct x; reflexivity. Qed.
  Lemma slice_map {A B} (f : A -> B) a b l : slice a b (map f l) = map f (slice a b l).
  Proof. unfold slice. now rewrite skipn_map, firstn_map. Qed.
  Lemma rolling_units w agg l : (forall v, agg (map (Rmult c) v) = in_units c (agg v)) -> rolling w agg (map (in_units c) l) = map (in_units c) (rolling w agg l).
  Proof.
    intros H. unfold rolling. rewrite map_length, map_map. apply map_ext. intros i. cbv zeta. rewrite slice_map, finite_vals_units, map_length.
    destruct (Nat.leb w _); [apply H|reflexivity].
  Qed.
  Lemma lsum_scaled v : lsum (map (Rmult c) v) = (c * lsum v)%R.
  Proof. unfold lsum. induction v as [|x v IH]; cbn; [ring|]. rewrite IH. ring. Qed.
  Lemma mean_scaled v : v <> [] -> mean (map (Rmult c) v) = (c * mean v)%R.
  Proof. intros H. unfold mean. rewrite lsum_scaled, map_length. field. destruct v; [congruence|]. cbn [List.length]. apply not_0_INR. lia. Qed.
  Lemma agg_mean_units v : agg_mean (map (Rmult c) v) = in_units c (agg_mean v).
  Proof. destruct v as [|x v]; [reflexivity|]. unfold agg_mean. cbn [map in_units]. f_equal. change (c * x :: map (Rmult c) v)%R with (map (Rmult c) (x :: v)). now apply mean_scaled. Qed.
  Lemma fold_max_units v a : fold_left Rmax (map (Rmult c) v) (c * a)%R = (c * fold_left Rmax v a)%R.
  Proof. revert a. induction v as [|x v IH]; intros a; cbn; [reflexivity|]. rewrite <- IH. f_equal. now apply RmaxRmult, Rlt_le. Qed.
  Lemma Rmin_scaled x y : Rmin (c * x) (c * y) = (c * Rmin x y)%R.
  Proof.
    destruct (Rle_dec x y) as [H|H].
    - rewrite !Rmin_left; auto. now apply Rmult_le_compat_l; [apply Rlt_le|].
    - apply Rnot_le_lt in H. rewrite !Rmin_right; auto; [now apply Rlt_le|]. apply Rmult_le_compat_l; now apply Rlt_le.
  Qed.
  Lemma fold_min_units v a : fold_left Rmin (map (Rmult c) v) (c * a)%R = (c * fold_left Rmin v a)%R.
  Proof. revert a. induction v as [|x v IH]; intros a; cbn; [reflexivity|]. rewrite <- IH. f_equal. apply Rmin_scaled. Qed.
  Lemma agg_max_units v : agg_max (map (Rmult c) v) = in_units c (agg_max v).
  Proof. destruct v as [|x v]; [reflexivity|]. cbn. f_equal. apply fold_max_units. Qed.
  Lemma agg_min_units v : agg_min (map (Rmult c) v) = in_units c (agg_min v).
  Proof. destruct v as [|x v]; [reflexivity|]. cbn. f_equal. apply fold_min_units. Qed.

  (** Covariances. *)
  Lemma combine_map2 {A B A' B'} (f : A -> A') (g : B -> B') u v : combine (map f u) (map g v) = map (fun p => (f (fst p), g (snd p))) (combine u v).
  Proof. revert v. induction u as [|x u IH]; intros [|y v]; cbn; auto. now rewrite IH. Qed.
  Let both (p : ext R * ext R) := (in_units c (fst p), in_units c (snd p)).
  Let bothR (p : R * R) := ((c * fst p)%R, (c * snd p)%R).
  Lemma finite_pairs_units l : finite_pairs (map both l) = map bothR (finite_pairs l).
  Proof. induction l as [|[x y] l IH]; [reflexivity|]. unfold finite_pairs in *. cbn [map flat_map]. rewrite IH. destruct x, y; reflexivity. Qed.
  Lemma agg_cov_units v : agg_cov (map bothR v) = in_units c (in_units c (agg_cov v)).
  Proof.
    unfold agg_cov. rewrite map_length. destruct (Nat.leb (List.length v) 1) eqn:L; [reflexivity|]. apply Nat.leb_gt in L. cbn [in_units amul Arith_R]. f_equal.
    assert (N : forall g : R * R -> R, map g v <> []) by (intros g E; apply (f_equal (@List.length R)) in E; rewrite map_length in E; cbn in E; lia).
    rewrite !(map_map bothR).
    assert (E1 : map (fun p => fst (bothR p)) v = map (Rmult c) (map fst v)) by (rewrite map_map; reflexivity).
    assert (E2 : map (fun p => snd (bothR p)) v = map (Rmult c) (map snd v)) by (rewrite map_map; reflexivity).
    assert (E3 : map (fun p => (fst (bothR p) * snd (bothR p))%R) v = map (Rmult c) (map (Rmult c) (map (fun p => fst p * snd p)%R v))).
    { rewrite !map_map. apply map_ext. intros p. cbn. ring. }
    rewrite E1, E2, E3. rewrite !mean_scaled; try apply N; [ring|].
    intros E. apply (f_equal (@List.length R)) in E. rewrite !map_length in E. cbn in E. lia.
  Qed.
  Lemma rolling_cov_units w s t : rolling_cov w (map (in_units c) s) (map (in_units c) t) = map (fun x => in_units c (in_units c x)) (rolling_cov w s t).
  Proof.
    unfold rolling_cov. cbv zeta. rewrite combine_map2. fold both. rewrite map_length, map_map. apply map_ext. intros i.
    rewrite slice_map, finite_pairs_units, map_length. destruct (Nat.leb w _); [apply agg_cov_units|reflexivity].
  Qed.
  Lemma sqrt_units x : emul (Fin 2%R) (esqrt (eabs (in_units c (in_units c x)))) = in_units c (emul (Fin 2%R) (esqrt (eabs x))).
  Proof.
    rewrite !eabs_units. set (y := eabs x).
    assert (P : forall v : R, y = Fin v -> (0 <= v)%R).
    { intros v. unfold y. destruct x as [u| | |]; cbn; try discriminate. destruct (Rlt_dec u 0) as [H|H]; intros E; injection E as <-; lra. }
    destruct y as [v| | |].
    - specialize (P v eq_refl). cbn [in_units amul Arith_R esqrt].
      destruct (Rlt_dec v 0) as [|_]; [lra|].
      assert (0 <= c * (c * v))%R by (apply Rmult_le_pos; [lra|apply Rmult_le_pos; lra]).
      destruct (Rlt_dec (c * (c * v)) 0) as [|_]; [lra|]. cbn. f_equal.
      rewrite <- Rmult_assoc, sqrt_mult by (try apply Rmult_le_pos; lra). rewrite sqrt_square by lra. ring.
    - cbn. destruct (asign 2%R); reflexivity.
    - reflexivity.
    - reflexivity.
  Qed.

  (** Exponential means. *)
  Lemma ewm_obs_units span l k : ewm_obs span (map (in_units c) l) k = map (fun o => (fst o, c * snd o)%R) (ewm_obs span l k).
  Proof.
    unfold ewm_obs. rewrite !flat_map_concat_map, concat_map, map_map. f_equal. apply map_ext. intros j. rewrite nth_error_map. destruct (nth_error l j) as [[]|]; reflexivity.
  Qed.
  Lemma ewm_mean_units span l : ewm_mean span (map (in_units c) l) = map (in_units c) (ewm_mean span l).
  Proof.
    unfold ewm_mean. rewrite map_length, map_map. apply map_ext. intros k. unfold ewm_mean_at. rewrite ewm_obs_units. destruct (ewm_obs span l k) as [|o r]; [reflexivity|].
    set (q := o :: r). assert (N : q <> []) by discriminate. clearbody q. clear o r.
    assert (E1 : map fst (map (fun o => (fst o, c * snd o)%R) q) = map fst q) by (rewrite map_map; reflexivity).
    assert (E2 : map (fun o => fst o * snd o)%R (map (fun o => (fst o, c * snd o)%R) q) = map (Rmult c) (map (fun o => fst o * snd o)%R q)).
    { rewrite !map_map. apply map_ext. intros o. cbn. ring. }
    assert (E3 : snd (last (map (fun o => (fst o, c * snd o)%R) q) (0, 0)%R) = (c * snd (last q (0, 0)%R))%R).
    { clear -N. induction q as [|o [|o' q] IH]; [congruence|reflexivity|]. cbn [map] in *. apply IH. discriminate. }
    destruct q as [|o r]; [congruence|]. destruct (Req_EM_T (1 - 2 / (span + 1)) 0) as [Z|_].
    { cbn [map] in E3 |- *. cbn [in_units amul Arith_R]. now rewrite E3. }
    cbn [map] in *. rewrite E1, E2. cbn [in_units amul Arith_R]. f_equal.
    change (lsum (map (Rmult c) ((fst o * snd o)%R :: map (fun o0 => (fst o0 * snd o0)%R) r)) / lsum (fst o :: map fst r) = c * (lsum ((fst o * snd o)%R :: map (fun o0 => (fst o0 * snd o0)%R) r) / lsum (fst o :: map fst r)))%R.
    rewrite lsum_scaled. unfold Rdiv. ring.
  Qed.

  (** ** Frames *)
  Variable prices : list string.
  Variables X X' : frame.
  Hypothesis HX : quoted_in c prices X X'.

  Lemma column_price name : In name prices -> column name X' = match column name X with Ok v => Ok (map (in_units c) v) | Err e => Err e end.
  Proof.
    intros I. unfold column. destruct HX as (_ & H & _). rewrite H by exact I. now destruct (lookup name X).
  Qed.
  Lemma column_other name : ~ In name prices -> column name X' = column name X.
  Proof. intros I. unfold column. destruct HX as (_ & _ & H). now rewrite H. Qed.
  Lemma check_units names : check_missing_columns X' names = check_missing_columns X names.
  Proof.
    unfold check_missing_columns. do 2 f_equal. induction names as [|n l IH]; [reflexivity|]. cbn. rewrite IH. f_equal.
    destruct HX as (_ & H & H'). destruct (in_dec string_dec n prices) as [I|I]; [rewrite H by exact I; now destruct (lookup n X)|now rewrite H'].
  Qed.
  Lemma lookup_price name : In name prices -> lookup name X' = option_map (map (in_units c)) (lookup name X).
  Proof. intros I. destruct HX as (_ & H & _). auto. Qed.

  Theorem crossover_units fast slow fill name : In name prices -> ma_crossover fast slow fill name X' = ma_crossover fast slow fill name X.
  Proof.
    intros I. unfold ma_crossover. rewrite column_price by exact I. destruct (column name X) as [v|]; [|reflexivity]. cbn [bind]. cbv zeta.
    destruct HX as (EI & _). rewrite EI, !rolling_units by apply agg_mean_units. unfold down_cross_indices, up_cross_indices. rewrite !shift1_units.
    rewrite !(zipw_same eleb), !(zipw_same eltb), !(zipw_same (fun f s => eleb s f)), !(zipw_same (fun f s => eltb s f)); auto using eleb_units, eltb_units.
  Qed.
  Theorem local_max_units w : In "high"%string prices -> In "close"%string prices -> local_max_to_close w X' = local_max_to_close w X.
  Proof.
    intros I J. unfold local_max_to_close. rewrite !column_price by assumption. destruct (column "high" X) as [h|]; [|reflexivity]. destruct (column "close" X) as [l|]; [|reflexivity].
    cbn [bind]. rewrite rolling_units by apply agg_max_units. now rewrite zipw_units.
  Qed.
  Theorem high_to_low_units : In "high"%string prices -> In "low"%string prices -> high_to_low_ratio X' = high_to_low_ratio X.
  Proof.
    intros I J. unfold high_to_low_ratio. rewrite !column_price by assumption. destruct (column "high" X) as [h|]; [|reflexivity]. destruct (column "low" X) as [l|]; [|reflexivity].
    cbn [bind]. now rewrite zipw_units.
  Qed.
  Lemma beta_units h l w : get_beta (map (in_units c) h) (map (in_units c) l) w = get_beta h l w.
  Proof. unfold get_beta. now rewrite zipw_units. Qed.
  Lemma gamma_units h l : get_gamma (map (in_units c) h) (map (in_units c) l) = get_gamma h l.
  Proof. unfold get_gamma. now rewrite !rolling_units, zipw_units by (try apply agg_max_units; try apply agg_min_units; exact Hc). Qed.
  Theorem parkinson_units w high low : In high prices -> In low prices -> parkinson w high low X' = parkinson w high low X.
  Proof.
    intros I J. unfold parkinson. rewrite check_units, !column_price by assumption. destruct (check_missing_columns X _); [|reflexivity]. cbn [bind].
    destruct (column high X) as [h|]; [|reflexivity]. destruct (column low X) as [l|]; [|reflexivity]. cbn [bind]. now rewrite zipw_units.
  Qed.
  Theorem corwin_schultz_units w high low : In high prices -> In low prices -> corwin_schultz w high low X' = corwin_schultz w high low X.
  Proof.
    intros I J. unfold corwin_schultz. rewrite check_units, !column_price by assumption. destruct (check_missing_columns X _); [|reflexivity]. cbn [bind].
    destruct (column high X) as [h|]; [|reflexivity]. destruct (column low X) as [l|]; [|reflexivity]. cbn [bind]. now rewrite beta_units, gamma_units.
  Qed.
  Theorem beckers_parkinson_units w high low : In high prices -> In low prices -> beckers_parkinson w high low X' = beckers_parkinson w high low X.
  Proof.
    intros I J. unfold beckers_parkinson. rewrite check_units, !column_price by assumption. destruct (check_missing_columns X _); [|reflexivity]. cbn [bind].
    destruct (column high X) as [h|]; [|reflexivity]. destruct (column low X) as [l|]; [|reflexivity]. cbn [bind]. now rewrite beta_units, gamma_units.
  Qed.
  Theorem amihud_units w close volume : In close prices -> ~ In volume prices -> amihud_lambda w close volume X' = amihud_lambda w close volume X.
  Proof.
    intros I J. unfold amihud_lambda. rewrite check_units, column_price, column_other by assumption. destruct (check_missing_columns X _); [|reflexivity]. cbn [bind].
    destruct (column close X) as [v|]; [|reflexivity]. cbn [bind]. now rewrite diff_log_units.
  Qed.
  Theorem hasbrouck_units w close volume : In close prices -> ~ In volume prices -> hasbrouck_lambda w close volume X' = hasbrouck_lambda w close volume X.
  Proof.
    intros I J. unfold hasbrouck_lambda. rewrite check_units, column_price, column_other by assumption. destruct (check_missing_columns X _); [|reflexivity]. cbn [bind].
    destruct (column close X) as [v|]; [|reflexivity]. cbn [bind]. now rewrite diff_log_units.
  Qed.
  Theorem kyle_units w close volume out : In close prices -> ~ In volume prices -> kyle_lambda w close volume X = Ok out -> kyle_lambda w close volume X' = Ok (map (in_units c) out).
  Proof.
    intros I J. unfold kyle_lambda. rewrite check_units, column_price, column_other by assumption. destruct (check_missing_columns X _); [|intros E; discriminate E]. cbn [bind].
    destruct (column close X) as [v|]; [|intros E; discriminate E]. destruct (column volume X) as [u|]; [|intros E; discriminate E]. cbn [bind]. intros E. injection E as <-.
    rewrite diff_units, map_abs_units, zipw_div_l, rolling_units by apply agg_mean_units. reflexivity.
  Qed.
  Theorem roll_units w close out : In close prices -> roll_measure w close X = Ok out -> roll_measure w close X' = Ok (map (in_units c) out).
  Proof.
    intros I. unfold roll_measure. rewrite check_units, column_price by assumption. destruct (check_missing_columns X _); [|intros E; discriminate E]. cbn [bind].
    destruct (column close X) as [v|]; [|intros E; discriminate E]. cbn [bind]. cbv zeta. intros E. injection E as <-. rewrite diff_units, shift1_units, rolling_cov_units.
    f_equal. rewrite !map_map. apply map_ext, sqrt_units.
  Qed.
  Theorem roll_impact_units w close volume out : In close prices -> ~ In volume prices -> roll_impact w close volume X = Ok out ->
    roll_impact w close volume X' = Ok (map (in_units c) out).
  Proof.
    intros I J. unfold roll_impact. destruct (roll_measure w close X) as [m|] eqn:E; [|intros H; discriminate H]. rewrite (roll_units _ _ _ I E), column_other by exact J. cbn [bind].
    destruct (column volume X) as [u|]; [|intros H; discriminate H]. cbn [bind]. intros H. injection H as <-. now rewrite zipw_div_l.
  Qed.
  Theorem ewma_units fast slow name out : In name prices -> ewma_difference fast slow false name X = Ok out -> ewma_difference fast slow false name X' = Ok (map (in_units c) out).
  Proof.
    intros I. unfold ewma_difference. rewrite column_price by exact I. destruct (column name X) as [v|]; [|intros E; discriminate E]. cbn [bind]. cbv zeta. intros E. injection E as <-.
    rewrite !ewm_mean_units. f_equal. apply zipw_mono, esub_units.
  Qed.
  Theorem mean_reversion_units ema threshold : In "close"%string prices -> (forall l, ema (map (in_units c) l) = map (in_units c) (ema l)) ->
    mean_reversion_predict ema threshold X' = mean_reversion_predict ema threshold X.
  Proof.
    intros I He. unfold mean_reversion_predict, ta_transform. rewrite lookup_price, column_price by exact I. destruct (lookup "close" X) as [v|] eqn:E; [|reflexivity].
    unfold column. rewrite E. cbn [option_map bind]. cbv zeta. rewrite He. rewrite (zipw_mono esub (in_units c) esub) by apply esub_units. now rewrite zipw_units.
  Qed.
End Units.
