(** Proofs: VPIN and the microstructural estimators. *)
From Coq Require Import Reals Lra Lia ZArith String.
From Verif Require Import PreludeFacts Series DailyVol_Model Feat_Model Feat_Spec Feat_Proofs Feat_Proofs2 Feat_Proofs3 Feat_Proofs4.
Local Open Scope nat_scope.

(** ** Columns given row by row *)
Lemma vf_fin c : values_from 0 (List.length c) (row c) (map Fin c).
Proof.
  split; [apply map_length|]. intros i Hi. rewrite nth_error_map. cbn [Nat.ltb Nat.leb]. destruct (nth_error c i) eqn:E; [|apply nth_error_None in E; lia].
  cbn. unfold row. now rewrite (nth_error_nth _ _ _ E).
Qed.
Lemma vf_ext k n g g' l : (forall i, k <= i < n -> g i = g' i) -> values_from k n g l -> values_from k n g' l.
Proof.
  intros H [Hl Hv]. split; auto. intros i Hi. rewrite (Hv i Hi). destruct (Nat.ltb_spec i k); auto. rewrite H; auto.
Qed.
Lemma vf_map k n g g' f l : values_from k n g l -> f NaN = NaN -> (forall i, k <= i < n -> f (Fin (g i)) = Fin (g' i)) -> values_from k n g' (map f l).
Proof.
  intros [Hl Hv] Hf H. split; [now rewrite map_length|]. intros i Hi. rewrite nth_error_map, (Hv i Hi). cbn [option_map]. f_equal.
  destruct (Nat.ltb_spec i k); auto.
Qed.
Lemma vf_zipw k1 k2 n g1 g2 g op l1 l2 : values_from k1 n g1 l1 -> values_from k2 n g2 l2 ->
  (forall y, op NaN y = NaN) -> (forall x, op x NaN = NaN) -> (forall i, Nat.max k1 k2 <= i < n -> op (Fin (g1 i)) (Fin (g2 i)) = Fin (g i)) ->
  values_from (Nat.max k1 k2) n g (zipw op l1 l2).
Proof.
  intros [Hl1 Hv1] [Hl2 Hv2] H1 H2 H. split; [rewrite zipw_length; lia|]. intros i Hi. rewrite zipw_nth, (Hv1 i Hi), (Hv2 i Hi). f_equal.
  destruct (Nat.ltb_spec i k1), (Nat.ltb_spec i k2), (Nat.ltb_spec i (Nat.max k1 k2)); try lia; auto.
Qed.
Lemma vf_shift k n g l : values_from k n g l -> values_from (S k) n (fun i => g (i - 1)) (shift1 l).
Proof.
  intros [Hl Hv]. split; [now rewrite shift1_length|]. intros i Hi. rewrite shift1_nth by lia. destruct i as [|j]; [reflexivity|]. rewrite Hv by lia.
  cbn [Nat.sub]. rewrite Nat.sub_0_r. destruct (Nat.ltb_spec j k), (Nat.ltb_spec (S j) (S k)); auto; lia.
Qed.
Lemma esub_nan_r (x : ext R) : esub x NaN = NaN. Proof. now destruct x. Qed.
Lemma eadd_nan_r (x : ext R) : eadd x NaN = NaN. Proof. now destruct x. Qed.
Lemma ediv_nan_r (x : ext R) : ediv x NaN = NaN. Proof. now destruct x. Qed.
Lemma vf_diff k n g l : values_from k n g l -> values_from (S k) n (fun i => g i - g (i - 1)%nat)%R (diff l).
Proof.
  intros H. unfold diff. replace (S k) with (Nat.max k (S k)) by lia. eapply vf_zipw; [exact H|apply vf_shift; exact H|reflexivity|apply esub_nan_r|].
  intros i Hi. reflexivity.
Qed.
Lemma all_numbers_none l : In NaN l -> all_numbers l = None.
Proof. induction l as [|x l IH]; [easy|]. intros [->|E]; [reflexivity|]. destruct x; cbn; auto. now rewrite IH. Qed.
Lemma vf_last k n g l w i : values_from k n g l -> 1 <= w -> i < n ->
  last_values w l i = if Nat.ltb i (k + w - 1) then None else Some (trailing w g i).
Proof.
  intros [Hl Hv] Hw Hi. unfold last_values.
  assert (Hn : forall j, j < n -> nth j l NaN = if Nat.ltb j k then NaN else Fin (g j)) by (intros; apply nth_error_nth; auto).
  destruct (Nat.ltb_spec (i + 1) w); [destruct (Nat.ltb_spec i (k + w - 1)); [auto|lia]|]. destruct (Nat.ltb_spec i (k + w - 1)).
  - apply all_numbers_none. apply in_map_iff. exists 0. rewrite in_seq. split; [|lia]. rewrite Hn by lia. destruct (Nat.ltb_spec (i + 1 - w + 0) k); auto; lia.
  - unfold trailing, rows_up_to. rewrite map_map. rewrite <- all_numbers_fin. f_equal. rewrite map_map. apply map_ext_in. intros j Hj. apply in_seq in Hj.
    rewrite Hn by lia. destruct (Nat.ltb_spec (i + 1 - w + j) k); auto; lia.
Qed.
Lemma trailing_length w g i : List.length (trailing w g i) = w.
Proof. unfold trailing, rows_up_to. now rewrite !map_length, seq_length. Qed.
Lemma vf_rolling k n g l w agg agg' : values_from k n g l -> 1 <= w ->
  (forall i, k + w - 1 <= i < n -> agg (trailing w g i) = Fin (agg' (trailing w g i))) ->
  values_from (k + w - 1) n (fun i => agg' (trailing w g i)) (rolling w agg l).
Proof.
  intros H Hw Ha. pose proof H as [Hl Hv]. split; [now rewrite rolling_length|]. intros i Hi. rewrite rolling_nth by lia.
  rewrite (vf_last k n g) by auto. f_equal. destruct (Nat.ltb_spec i (k + w - 1)); auto.
Qed.
Lemma mean_average v : agg_mean v = match v with [] => NaN | _ => Fin (average v) end.
Proof. now destruct v. Qed.
Lemma vf_mean k n g l w : values_from k n g l -> 1 <= w -> values_from (k + w - 1) n (fun i => average (trailing w g i)) (rolling w agg_mean l).
Proof.
  intros H Hw. apply vf_rolling; auto. intros i Hi. rewrite mean_average. pose proof (trailing_length w g i). destruct (trailing w g i); [cbn in *; lia|reflexivity].
Qed.

Lemma finite_pairs_length l : List.length (finite_pairs l) <= List.length l.
Proof. unfold finite_pairs. induction l as [|[[a| | |] [b| | |]] l IH]; cbn; lia. Qed.
Lemma finite_pairs_missing l p : In p l -> fst p = NaN \/ snd p = NaN -> List.length (finite_pairs l) < List.length l.
Proof.
  induction l as [|q l IH]; [easy|]. pose proof (finite_pairs_length l) as HL. intros [->|Hp] Hn.
  - destruct p as [a b]. cbn [fst snd] in Hn. unfold finite_pairs in *. cbn [flat_map]. destruct Hn as [-> | ->]; [|destruct a]; cbn; lia.
  - specialize (IH Hp Hn). unfold finite_pairs in *. cbn [flat_map]. rewrite app_length. destruct q as [[a| | |] [b| | |]]; cbn; lia.
Qed.
Lemma nth_error_skipn'' {A} (l : list A) m j : nth_error (skipn m l) j = nth_error l (m + j).
Proof. revert m. induction l as [|x l IH]; intros [|m]; cbn; auto. now destruct j. Qed.
Lemma slice_tab {A} (l : list A) d a w : a + w <= List.length l -> slice a (a + w) l = map (fun j => nth (a + j) l d) (seq 0 w).
Proof.
  intros H. unfold slice. replace (a + w - a) with w by lia. apply list_ext. intros i. destruct (Nat.lt_ge_cases i w) as [Hi|Hi].
  - rewrite nth_error_firstn_lt, nth_error_map, nth_error_seq_lt by auto. cbn. rewrite (nth_error_skipn'' l). now apply nth_error_nth'; lia.
  - transitivity (@None A); [|symmetry]; apply nth_error_None; rewrite ?firstn_length, ?map_length, ?seq_length; lia.
Qed.
Lemma combine_map {A B C} (f : A -> B) (g : A -> C) l : combine (map f l) (map g l) = map (fun x => (f x, g x)) l.
Proof. induction l as [|x l IH]; cbn; congruence. Qed.
Lemma vf_cov k1 k2 n g1 g2 l1 l2 w : values_from k1 n g1 l1 -> values_from k2 n g2 l2 -> 2 <= w ->
  values_from (Nat.max k1 k2 + w - 1) n (fun i => covariance (trailing w g1 i) (trailing w g2 i)) (rolling_cov w l1 l2).
Proof.
  intros [Hl1 Hv1] [Hl2 Hv2] Hw. split; [unfold rolling_cov; rewrite map_length, seq_length, combine_length; lia|].
  intros i Hi. unfold rolling_cov. assert (HL : List.length (combine l1 l2) = n) by (rewrite combine_length; lia).
  rewrite nth_error_map, nth_error_seq_lt by lia. cbn [option_map Nat.add]. cbv zeta. f_equal.
  destruct (Nat.lt_ge_cases (S i) w) as [Hc|Hc].
  { destruct (Nat.ltb_spec i (Nat.max k1 k2 + w - 1)); [|lia]. destruct (Nat.leb_spec w (List.length (finite_pairs (slice (S i - w) (S i) (combine l1 l2))))) as [Hle|]; auto.
    pose proof (finite_pairs_length (slice (S i - w) (S i) (combine l1 l2))) as HH. unfold slice in HH at 2. rewrite firstn_length in HH. lia. }
  set (a := S i - w). replace (S i) with (a + w) by (unfold a; lia). rewrite (slice_tab _ (NaN, NaN)) by (unfold a; lia).
  assert (Hn : forall j, j < w -> nth (a + j) (combine l1 l2) (NaN, NaN) = (if Nat.ltb (a + j) k1 then NaN else Fin (g1 (a + j)), if Nat.ltb (a + j) k2 then NaN else Fin (g2 (a + j)))).
  { intros j Hj. rewrite combine_nth by lia. f_equal; apply nth_error_nth; auto; [apply Hv1|apply Hv2]; unfold a; lia. }
  rewrite (map_ext_in _ (fun j => (if Nat.ltb (a + j) k1 then NaN else Fin (g1 (a + j)), if Nat.ltb (a + j) k2 then NaN else Fin (g2 (a + j))))) by (intros j Hj; apply in_seq in Hj; apply Hn; lia).
  destruct (Nat.ltb_spec i (Nat.max k1 k2 + w - 1)) as [Hlt|Hge].
  - set (L := map _ (seq 0 w)). assert (List.length (finite_pairs L) < List.length L) as H.
    { eapply finite_pairs_missing; [apply in_map; apply in_seq; split; [apply Nat.le_0_l|instantiate (1 := 0); lia]|]. cbn [fst snd].
      destruct (Nat.ltb_spec (a + 0) k1), (Nat.ltb_spec (a + 0) k2); auto. unfold a in *. lia. }
    unfold L at 2 in H. rewrite map_length, seq_length in H. destruct (Nat.leb_spec w (List.length (finite_pairs L))); auto. lia.
  - rewrite (map_ext_in _ (fun j => (Fin (g1 (a + j)), Fin (g2 (a + j))))).
    2:{ intros j Hj. apply in_seq in Hj. destruct (Nat.ltb_spec (a + j) k1), (Nat.ltb_spec (a + j) k2); auto; unfold a in *; lia. }
    assert (Hf : forall s, finite_pairs (map (fun j => (Fin (g1 (a + j)), Fin (g2 (a + j)))) s) = map (fun j => (g1 (a + j), g2 (a + j))) s).
    { unfold finite_pairs. induction s as [|j s IH]; [reflexivity|]. cbn [map flat_map app]. now rewrite IH. }
    rewrite Hf. rewrite map_length, seq_length, Nat.leb_refl. unfold agg_cov. rewrite map_length, seq_length. destruct (Nat.leb_spec w 1); [lia|]. f_equal.
    unfold covariance. rewrite trailing_length. unfold trailing, rows_up_to. replace (i + 1 - w) with a by (unfold a; lia). rewrite !map_map. cbn [fst snd].
    rewrite combine_map, map_map. cbn [fst snd]. unfold mean, average. rewrite !map_length, seq_length. change lsum with rsum.
    set (X := fun j => g1 (a + j)). set (Y := fun j => g2 (a + j)).
    set (sx := rsum (map X (seq 0 w))). set (sy := rsum (map Y (seq 0 w))).
    assert (HW : (2 <= INR w)%R) by (apply le_INR in Hw; exact Hw).
    rewrite (map_ext (fun j => (X j - sx / INR w) * (Y j - sy / INR w))%R (fun j => (X j * Y j + - (sx / INR w) * Y j) + (- (sy / INR w) * X j + (sx / INR w) * (sy / INR w)))%R) by (intros; ring).
    rewrite !rsum_plus, !rsum_scale, rsum_const, seq_length. fold sx sy.
    change (fun x : nat => (g1 (a + x)%nat * g2 (a + x)%nat)%R) with (fun x : nat => (X x * Y x)%R). field. split; lra.
Qed.

(** ** Formulas *)
Lemma eabs_fin x : eabs (Fin x) = Fin (Rabs x).
Proof.
  unfold eabs. cbn [altb Arith_R a0 aopp]. destruct (Rlt_dec x 0); f_equal; [rewrite Rabs_left; lra|rewrite Rabs_right; lra].
Qed.
Lemma ediv_fin x y : y <> 0%R -> ediv (Fin x) (Fin y) = Fin (x / y)%R.
Proof. intros H. cbn. destruct (Req_EM_T y 0); [lra|reflexivity]. Qed.
Lemma esqrt_fin x : (0 <= x)%R -> esqrt (Fin x) = Fin (sqrt x).
Proof. intros H. unfold esqrt. destruct (Rlt_dec x 0); [lra|reflexivity]. Qed.
Lemma elog_fin x : (0 < x)%R -> elog (Fin x) = Fin (ln x).
Proof. intros H. unfold elog. destruct (Rlt_dec 0 x); [reflexivity|lra]. Qed.
Lemma vf_from k k' n g l : k = k' -> values_from k n g l -> values_from k' n g l.
Proof. now intros ->. Qed.
Lemma positive_row c i : Forall (fun x => 0 < x)%R c -> i < List.length c -> (0 < row c i)%R.
Proof. intros H Hi. rewrite Forall_forall in H. apply H. now apply nth_In. Qed.

Definition cols_present (X : frame) names : check_missing_columns X names = Ok tt <-> forall n, In n names -> lookup n X <> None.
Proof.
  unfold check_missing_columns, raise_if. destruct (forallb _ names) eqn:E; cbn [negb].
  - split; auto. intros _ n Hn. rewrite forallb_forall in E. specialize (E n Hn). now destruct (lookup n X).
  - split; [discriminate|]. intros H. exfalso. assert (forallb (fun n => match lookup n X with Some _ => true | None => false end) names = true); [|congruence].
    apply forallb_forall. intros n Hn. specialize (H n Hn). now destruct (lookup n X).
Qed.
Ltac present := match goal with |- context [check_missing_columns ?X ?ns] => rewrite (proj2 (cols_present X ns)) by (intros ? HH; cbn in HH; intuition (subst; congruence)) end; cbn [bind].
Ltac get_col := match goal with H : has_column ?X ?n ?c |- context [column ?n ?X] => unfold column at 1; rewrite H; cbn [bind] end.

Section Formulas.
  Variables (w : nat) (X : frame) (cn vn hn ln' : string) (c v h l : list R).
  Hypothesis Hw : 1 <= w.

  Lemma kyle_formula : has_column X cn c -> has_column X vn v -> List.length v = List.length c -> Forall (fun x => 0 < x)%R v ->
    exists out, kyle_lambda w cn vn X = Ok out /\
    values_from w (List.length c) (fun i => average (trailing w (fun j => Rabs (change c j) / row v j)%R i)) out.
  Proof.
    intros Hc Hv Hl Hpos. unfold kyle_lambda. unfold has_column in *. present. unfold column. rewrite Hc, Hv. cbn [bind]. eexists. split; [reflexivity|].
    apply (vf_from (Nat.max 1 0 + w - 1)); [lia|]. apply vf_mean; [|auto].
    eapply vf_zipw; [eapply vf_map; [apply vf_diff; apply vf_fin|reflexivity|intros i Hi; apply eabs_fin]| |reflexivity|apply ediv_nan_r|].
    - rewrite <- Hl. apply vf_fin.
    - intros i Hi. cbv beta. rewrite ediv_fin; [reflexivity|]. apply Rgt_not_eq. apply positive_row; auto; lia.
  Qed.
  Lemma amihud_formula : has_column X cn c -> has_column X vn v -> List.length v = List.length c -> Forall (fun x => 0 < x)%R v -> Forall (fun x => 0 < x)%R c ->
    exists out, amihud_lambda w cn vn X = Ok out /\
    values_from w (List.length c) (fun i => average (trailing w (fun j => Rabs (log_change c j) / row v j)%R i)) out.
  Proof.
    intros Hc Hv Hl Hpos Hcp. unfold amihud_lambda. unfold has_column in *. present. unfold column. rewrite Hc, Hv. cbn [bind]. eexists. split; [reflexivity|].
    apply (vf_from (Nat.max 1 0 + w - 1)); [lia|]. apply vf_mean; [|auto].
    eapply vf_zipw; [eapply vf_map; [apply vf_diff; eapply vf_map; [apply vf_fin|reflexivity|]|reflexivity|intros i Hi; apply eabs_fin]| |reflexivity|apply ediv_nan_r|].
    - intros i Hi. cbv beta. apply elog_fin. apply positive_row; auto; lia.
    - rewrite <- Hl. apply vf_fin.
    - intros i Hi. cbv beta. rewrite ediv_fin; [reflexivity|]. apply Rgt_not_eq. apply positive_row; auto; lia.
  Qed.
  Lemma hasbrouck_formula : has_column X cn c -> has_column X vn v -> List.length v = List.length c -> Forall (fun x => 0 < x)%R v -> Forall (fun x => 0 < x)%R c ->
    exists out, hasbrouck_lambda w cn vn X = Ok out /\
    values_from w (List.length c) (fun i => average (trailing w (fun j => Rabs (log_change c j) / sqrt (row v j))%R i)) out.
  Proof.
    intros Hc Hv Hl Hpos Hcp. unfold hasbrouck_lambda. unfold has_column in *. present. unfold column. rewrite Hc, Hv. cbn [bind]. eexists. split; [reflexivity|].
    apply (vf_from (Nat.max 1 0 + w - 1)); [lia|]. apply vf_mean; [|auto].
    eapply vf_zipw; [eapply vf_map; [apply vf_diff; eapply vf_map; [apply vf_fin|reflexivity|]|reflexivity|intros i Hi; apply eabs_fin]| |reflexivity|apply ediv_nan_r|].
    - intros i Hi. cbv beta. apply elog_fin. apply positive_row; auto; lia.
    - eapply vf_map; [rewrite <- Hl; apply vf_fin|reflexivity|]. intros i Hi. cbv beta. apply esqrt_fin. left. apply positive_row; auto; lia.
    - intros i Hi. cbv beta. rewrite ediv_fin; [reflexivity|]. apply Rgt_not_eq. apply sqrt_lt_R0. apply positive_row; auto; lia.
  Qed.
  Lemma roll_formula : 2 <= w -> has_column X cn c -> exists out, roll_measure w cn X = Ok out /\
    values_from (w + 1) (List.length c) (fun i => 2 * sqrt (Rabs (covariance (trailing w (change c) i) (trailing w (fun j => change c (j - 1)) i))))%R out.
  Proof.
    intros Hw2 Hc. unfold roll_measure. unfold has_column in *. present. unfold column. rewrite Hc. cbn [bind]. eexists. split; [reflexivity|].
    apply (vf_from (Nat.max 1 2 + w - 1)); [cbn; lia|].
    eapply vf_map; [apply vf_cov; [apply vf_diff, vf_fin|apply vf_shift, vf_diff, vf_fin|auto]|reflexivity|].
    intros i Hi. cbv beta. rewrite eabs_fin, esqrt_fin by apply Rabs_pos. reflexivity.
  Qed.
  Lemma impact_formula : 2 <= w -> has_column X cn c -> has_column X vn v -> List.length v = List.length c -> Forall (fun x => 0 < x)%R v ->
    exists out, roll_impact w cn vn X = Ok out /\
    values_from (w + 1) (List.length c)
      (fun i => 2 * sqrt (Rabs (covariance (trailing w (change c) i) (trailing w (fun j => change c (j - 1)) i))) / row v i)%R out.
  Proof.
    intros Hw2 Hc Hv Hl Hpos. unfold roll_impact. destruct (roll_formula Hw2 Hc) as (m & -> & Hm). cbn [bind]. unfold column. rewrite Hv. cbn [bind].
    eexists. split; [reflexivity|]. apply (vf_from (Nat.max (w + 1) 0)); [lia|].
    eapply vf_zipw; [exact Hm|rewrite <- Hl; apply vf_fin|reflexivity|apply ediv_nan_r|]. intros i Hi. cbv beta.
    rewrite ediv_fin; [reflexivity|]. apply Rgt_not_eq. apply positive_row; auto; lia.
  Qed.

  Hypothesis Hlen : List.length l = List.length h.
  Hypothesis Hh : Forall (fun x => 0 < x)%R h.
  Hypothesis Hl : Forall (fun x => 0 < x)%R l.
  Lemma vf_ratio : values_from 0 (List.length h) (fun i => row h i / row l i)%R (zipw ediv (map Fin h) (map Fin l)).
  Proof.
    apply (vf_from (Nat.max 0 0)); [reflexivity|]. eapply vf_zipw; [apply vf_fin|rewrite <- Hlen; apply vf_fin|reflexivity|apply ediv_nan_r|].
    intros i Hi. apply ediv_fin. apply Rgt_not_eq. apply positive_row; auto; lia.
  Qed.
  Lemma parkinson_formula : has_column X hn h -> has_column X ln' l -> exists out, parkinson w hn ln' X = Ok out /\
    values_from (w - 1) (List.length h) (fun i => average (trailing w (fun j => 1 / (4 * ln 2) * range2 h l j)%R i)) out.
  Proof.
    intros Hc Hv. unfold parkinson. unfold has_column in *. present. unfold column. rewrite Hc, Hv. cbn [bind]. eexists. split; [reflexivity|].
    apply (vf_from (0 + w - 1)); [lia|]. apply vf_mean; [|auto]. eapply vf_map; [apply vf_ratio|reflexivity|]. intros i Hi. cbv beta.
    rewrite elog_fin; [reflexivity|]. apply Rdiv_lt_0_compat; apply positive_row; auto; lia.
  Qed.
  Lemma vf_ext_trailing k n w' g g' f x : (forall i, k <= i -> g i = g' i) -> 1 <= w' ->
    values_from (k + w' - 1) n (fun i => f (trailing w' g i)) x -> values_from (k + w' - 1) n (fun i => f (trailing w' g' i)) x.
  Proof.
    intros E Hw'. apply vf_ext. intros i Hi. f_equal. unfold trailing, rows_up_to. rewrite !map_map. apply map_ext_in. intros j Hj. apply in_seq in Hj. apply E. lia.
  Qed.
  Lemma vf_beta : values_from w (List.length h) (beta_two w h l) (get_beta (map Fin h) (map Fin l) w).
  Proof.
    unfold get_beta. apply (vf_from (1 + w - 1)); [lia|]. unfold beta_two.
    assert (E : forall i, 1 <= i -> rsum (trailing 2 (range2 h l) i) = (range2 h l (i - 1) + range2 h l i)%R).
    { intros i Hi. unfold trailing, rows_up_to. cbn [seq map]. unfold rsum. cbn [fold_right]. replace (i + 1 - 2 + 0) with (i - 1) by lia.
      replace (i + 1 - 2 + 1) with i by lia. lra. }
    apply (vf_ext_trailing _ _ _ _ _ average _ E Hw). apply vf_mean; [|auto].
    apply (vf_rolling 0 _ (range2 h l) _ 2 agg_sum rsum); [|lia|reflexivity].
    eapply vf_map; [eapply vf_map; [apply vf_ratio|reflexivity|]|reflexivity|].
    - intros i Hi. cbv beta. apply elog_fin. apply Rdiv_lt_0_compat; apply positive_row; auto; lia.
    - intros i Hi. reflexivity.
  Qed.
  Lemma vf_gamma : values_from 1 (List.length h) (gamma_two h l) (get_gamma (map Fin h) (map Fin l)).
  Proof.
    unfold get_gamma. apply (vf_from (Nat.max 1 1)); [reflexivity|].
    assert (Em : forall c i, 1 <= i -> trailing 2 (row c) i = [row c (i - 1); row c i]).
    { intros c0 i Hi. unfold trailing, rows_up_to. cbn [seq map]. replace (i + 1 - 2 + 0) with (i - 1) by lia. now replace (i + 1 - 2 + 1) with i by lia. }
    eapply vf_map; [eapply vf_map; [eapply vf_zipw; [| |reflexivity|apply ediv_nan_r|]|reflexivity|]|reflexivity|].
    - apply (vf_rolling 0 (List.length h) (row h) _ 2 agg_max (fun t => match t with [a; b] => Rmax a b | _ => 0%R end)); [apply vf_fin|lia|].
      intros i Hi. rewrite Em by lia. reflexivity.
    - apply (vf_rolling 0 (List.length h) (row l) _ 2 agg_min (fun t => match t with [a; b] => Rmin a b | _ => 0%R end)); [rewrite <- Hlen; apply vf_fin|lia|].
      intros i Hi. rewrite Em by lia. reflexivity.
    - intros i Hi. cbv beta. cbn in Hi. rewrite ?Em by lia. apply ediv_fin. apply Rgt_not_eq. apply Rmin_pos; apply positive_row; auto; lia.
    - intros i Hi. cbv beta. cbn in Hi. rewrite ?Em by lia. apply elog_fin. apply Rdiv_lt_0_compat; [|apply Rmin_pos; apply positive_row; auto; lia].
      eapply Rlt_le_trans; [|apply Rmax_l]. apply positive_row; auto; lia.
    - intros i Hi. cbv beta. cbn in Hi. rewrite ?Em by lia. reflexivity.
  Qed.
  Lemma beta_nonneg i : (0 <= beta_two w h l i)%R.
  Proof.
    unfold beta_two, average. apply Rmult_le_pos.
    - apply rsum_nonneg. intros x Hx. unfold trailing in Hx. apply in_map_iff in Hx as (j & <- & _). unfold range2.
      pose proof (Rle_0_sqr (ln (row h (j - 1) / row l (j - 1)))). pose proof (Rle_0_sqr (ln (row h j / row l j))). unfold Rsqr in *. lra.
    - rewrite trailing_length. left. apply Rinv_0_lt_compat. apply lt_0_INR. lia.
  Qed.
  Lemma den_pos : (0 < den_cs)%R.
  Proof.
    unfold den_cs. assert (sqrt 2 < 1.5)%R; [|lra]. rewrite <- (sqrt_square 1.5) by lra. apply sqrt_lt_1; lra.
  Qed.
  Lemma gamma_nonneg i : (0 <= gamma_two h l i)%R.
  Proof. apply Rle_0_sqr. Qed.
  Lemma zero_neg x : set_negative_to_zero (Fin x) = Fin (Rmax 0 x).
  Proof.
    unfold set_negative_to_zero. cbn. destruct (Rlt_dec x 0); f_equal; [rewrite Rmax_left; lra|rewrite Rmax_right; lra].
  Qed.
  Lemma div_nonneg a b : (0 <= a)%R -> (0 < b)%R -> (0 <= a / b)%R.
  Proof. intros. apply Rmult_le_pos; auto. left. now apply Rinv_0_lt_compat. Qed.
  Lemma vf_alpha : values_from w (List.length h) (cs_alpha w h l) (get_alpha (get_beta (map Fin h) (map Fin l) w) (get_gamma (map Fin h) (map Fin l))).
  Proof.
    unfold get_alpha. apply (vf_from (Nat.max w 1)); [lia|]. pose proof den_pos as Hd.
    eapply vf_map; [eapply vf_zipw; [eapply vf_map; [apply vf_beta|reflexivity|]|eapply vf_map; [apply vf_gamma|reflexivity|]|reflexivity|apply esub_nan_r|]|reflexivity|].
    - intros i Hi. cbv beta. cbn [epow_half]. rewrite esqrt_fin by apply beta_nonneg. cbn [emul amul Arith_R]. apply ediv_fin. lra.
    - intros i Hi. cbv beta. rewrite ediv_fin by lra. cbn [epow_half]. rewrite esqrt_fin by (apply div_nonneg; auto; apply gamma_nonneg). reflexivity.
    - intros i Hi. reflexivity.
    - intros i Hi. cbv beta. rewrite zero_neg. reflexivity.
  Qed.
  Lemma corwin_formula : has_column X hn h -> has_column X ln' l -> exists out, corwin_schultz w hn ln' X = Ok out /\
    values_from w (List.length h) (cs_spread w h l) out.
  Proof.
    intros Hc Hv. unfold corwin_schultz. unfold has_column in *. present. unfold column. rewrite Hc, Hv. cbn [bind]. eexists. split; [reflexivity|].
    eapply vf_map; [apply vf_alpha|reflexivity|]. intros i Hi. cbv beta. cbn [eexp]. unfold esub. cbn [eopp eadd aopp aadd emul amul Arith_R].
    pose proof (exp_pos (cs_alpha w h l i)). rewrite ediv_fin by lra. reflexivity.
  Qed.
  Lemma beckers_formula : has_column X hn h -> has_column X ln' l -> exists out, beckers_parkinson w hn ln' X = Ok out /\
    values_from w (List.length h) (bp_sigma w h l) out.
  Proof.
    intros Hc Hv. unfold beckers_parkinson. unfold has_column in *. present. unfold column. rewrite Hc, Hv. cbn [bind]. eexists. split; [reflexivity|].
    apply (vf_from (Nat.max w 1)); [lia|]. pose proof den_pos as Hd. assert (Hk : (0 < 8 / PI)%R) by (apply Rdiv_lt_0_compat; [lra|apply PI_RGT_0]).
    assert (Hs : (0 < sqrt (8 / PI))%R) by (apply sqrt_lt_R0; lra).
    assert (Hs2 : (sqrt (8 / PI) * sqrt (8 / PI) = 8 / PI)%R) by (apply sqrt_sqrt; lra). rewrite Hs2.
    eapply vf_map; [eapply vf_zipw; [eapply vf_map; [apply vf_beta|reflexivity|]|eapply vf_map; [apply vf_gamma|reflexivity|]|reflexivity|apply eadd_nan_r|]|reflexivity|].
    - intros i Hi. cbv beta. cbn [epow_half]. rewrite esqrt_fin by apply beta_nonneg. cbn [emul amul Arith_R]. apply ediv_fin. apply Rgt_not_eq. now apply Rmult_lt_0_compat.
    - intros i Hi. cbv beta. assert (0 < 8 / PI * den_cs)%R by now apply Rmult_lt_0_compat. rewrite ediv_fin by lra. cbn [epow_half].
      rewrite esqrt_fin by (apply div_nonneg; auto; apply gamma_nonneg). reflexivity.
    - intros i Hi. reflexivity.
    - intros i Hi. cbv beta. rewrite zero_neg. reflexivity.
  Qed.
End Formulas.
