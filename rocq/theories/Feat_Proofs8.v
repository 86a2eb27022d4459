(** Proofs: formulas of the simple features. *)
From Coq Require Import Reals Lra Lia ZArith String.
From Verif Require Import PreludeFacts Series DailyVol_Model Feat_Model Feat_Spec Feat_Proofs Feat_Proofs2 Feat_Proofs3 Feat_Proofs4 Feat_Proofs5.
Local Open Scope nat_scope.

(** ** Greatest high over close *)
Lemma fold_max v : forall x, greatest (x :: v) (fold_left Rmax v x).
Proof.
  induction v as [|y v IH]; intros x; cbn [fold_left]; [split; [now left|]; intros z [<-|[]]; lra|].
  destruct (IH (Rmax x y)) as (H1 & H2). split.
  - destruct H1 as [H1|H1]; [|right; now right]. rewrite <- H1. unfold Rmax. destruct (Rle_dec x y); [right; now left|now left].
  - pose proof (H2 (Rmax x y) (or_introl eq_refl)). pose proof (Rmax_l x y). pose proof (Rmax_r x y). intros z [<-|[<-|Hz]]; [lra|lra|]. apply H2. now right.
Qed.
Lemma local_max_formula w X h c : 1 <= w -> has_column X "high" h -> has_column X "close" c -> List.length c = List.length h -> Forall (fun x => 0 < x)%R c ->
  exists out, local_max_to_close w X = Ok out /\ List.length out = List.length h /\
  forall i, i < List.length h -> (i + 1 < w /\ nth_error out i = Some NaN) \/
    (w <= i + 1 /\ exists m, greatest (trailing w (row h) i) m /\ nth_error out i = Some (Fin (m / row c i)%R)).
Proof.
  intros Hw Hh Hc Hl Hp. unfold local_max_to_close, has_column, column in *. rewrite Hh, Hc. cbn [bind]. eexists. split; [reflexivity|].
  assert (V : values_from (Nat.max (0 + w - 1) 0) (List.length h) (fun i => match trailing w (row h) i with [] => 0 | x :: r => fold_left Rmax r x end / row c i)%R (zipw ediv (rolling w agg_max (map Fin h)) (map Fin c))).
  { eapply vf_zipw; [|rewrite <- Hl; apply vf_fin|reflexivity|apply ediv_nan_r|].
    - apply (vf_rolling 0 (List.length h) (row h) _ w agg_max (fun v => match v with [] => 0%R | x :: r => fold_left Rmax r x end)); [apply vf_fin|exact Hw|].
      intros i Hi. pose proof (trailing_length w (row h) i) as L. destruct (trailing w (row h) i); [cbn in L; lia|reflexivity].
    - intros i Hi. apply ediv_fin. apply Rgt_not_eq. apply positive_row; auto; lia. }
  destruct V as (V1 & V2). split; [exact V1|]. intros i Hi. rewrite (V2 i Hi). destruct (Nat.ltb_spec i (Nat.max (0 + w - 1) 0)); [left; split; [lia|reflexivity]|right]. split; [lia|].
  pose proof (trailing_length w (row h) i) as L. destruct (trailing w (row h) i) as [|x r]; [cbn in L; lia|]. eexists. split; [apply fold_max|reflexivity].
Qed.

(** ** Exponential averages *)
Lemma rsum_cons x l : rsum (x :: l) = (x + rsum l)%R.
Proof. reflexivity. Qed.
Lemma rsum_app2 a b : rsum (a ++ b) = (rsum a + rsum b)%R.
Proof. induction a as [|x a IH]; cbn [app]; [cbn; lra|]. rewrite !rsum_cons, IH. lra. Qed.
Lemma rsum_map_rev {A} (f : A -> R) l : rsum (map f (rev l)) = rsum (map f l).
Proof. induction l as [|x l IH]; [reflexivity|]. cbn [rev map]. rewrite map_app, rsum_app2, IH. cbn [map]. rewrite !rsum_cons. change (rsum []) with 0%R. lra. Qed.
Lemma seq_rev i : rev (seq 0 (S i)) = map (fun j => i - j) (seq 0 (S i)).
Proof.
  assert (Ext : forall a b : list nat, (forall n, nth_error a n = nth_error b n) -> a = b).
  { induction a as [|x a IH]; intros [|y b] H; [reflexivity|specialize (H 0); discriminate|specialize (H 0); discriminate|]. pose proof (H 0) as H0. cbn in H0. injection H0 as <-. f_equal. apply IH. intros n. apply (H (S n)). }
  apply Ext. intros n. rewrite nth_error_map. destruct (Nat.lt_ge_cases n (S i)) as [H|H].
  - rewrite (nth_error_nth' _ 0) by (rewrite rev_length, seq_length; lia). rewrite (nth_error_nth' (seq 0 (S i)) 0) by (rewrite seq_length; lia).
    rewrite rev_nth, seq_length, !seq_nth by (rewrite ?seq_length; lia). reflexivity.
  - rewrite (proj2 (nth_error_None (rev (seq 0 (S i))) n)) by (rewrite rev_length, seq_length; lia). now rewrite (proj2 (nth_error_None (seq 0 (S i)) n)) by (rewrite seq_length; lia).
Qed.
Lemma ewm_obs_fin span c i : i < List.length c -> ewm_obs span (map Fin c) i = map (fun j => (decay span ^ (i - j), row c j)%R) (seq 0 (S i)).
Proof.
  intros Hi. unfold ewm_obs. assert (E : forall l, (forall j, In j l -> j < List.length c) -> flat_map (fun j => match nth_error (map Fin c) j with Some (Fin x) => [((1 - 2 / (span + 1)) ^ (i - j), x)%R] | _ => [] end) l =
    map (fun j => (decay span ^ (i - j), row c j)%R) l).
  { induction l as [|j l IH]; intros H; [reflexivity|]. cbn [flat_map map]. rewrite IH by (intros; apply H; now right). rewrite nth_error_map. rewrite (nth_error_nth' c 0%R) by (apply H; now left). reflexivity. }
  apply E. intros j Hj. apply in_seq in Hj. lia.
Qed.
Lemma ewm_mean_fin span c : values_from 0 (List.length c) (ewma span c) (ewm_mean span (map Fin c)).
Proof.
  unfold ewm_mean. split; [now rewrite map_length, seq_length, map_length|]. intros i Hi. rewrite nth_error_map. rewrite (nth_error_nth' _ 0) by (rewrite seq_length, map_length; lia).
  rewrite seq_nth by (rewrite map_length; lia). cbn [option_map Nat.ltb Nat.leb Nat.add]. f_equal. unfold ewm_mean_at. rewrite ewm_obs_fin by exact Hi.
  assert (E : map (fun j : nat => ((decay span ^ (i - j))%R, row c j)) (seq 0 (S i)) = ((decay span ^ (i - 0))%R, row c 0) :: map (fun j : nat => ((decay span ^ (i - j))%R, row c j)) (seq 1 i)) by reflexivity.
  rewrite E. cbv iota. rewrite <- E. destruct (Req_EM_T (1 - 2 / (span + 1)) 0) as [Z|_].
  { rewrite seq_S, map_app. cbn [map]. rewrite last_last. cbn [snd Nat.add]. f_equal. unfold ewma. replace (i + 1) with (S i) by lia. symmetry.
    assert (D : decay span = 0%R) by exact Z. cbn [seq map]. rewrite !rsum_cons. replace (i - 0) with i by lia.
    rewrite <- seq_shift, !map_map.
    rewrite (map_ext (fun j => decay span ^ S j)%R (fun _ => 0%R)) by (intros j; rewrite D; cbn; ring).
    rewrite (map_ext (fun j => (decay span ^ S j * row c (i - S j))%R) (fun _ => 0%R)) by (intros j; rewrite D; cbn; ring).
    assert (Z0 : forall l : list nat, rsum (map (fun _ => 0%R) l) = 0%R) by (induction l as [|y l IH]; [reflexivity|]; cbn [map]; rewrite rsum_cons, IH; lra).
    rewrite !Z0. cbn. field. }
  rewrite !map_map. cbn [fst snd]. f_equal. unfold ewma. replace (i + 1) with (S i) by lia. change lsum with rsum. f_equal.
  - rewrite <- (rsum_map_rev _ (seq 0 (S i))), seq_rev, map_map. f_equal. apply map_ext_in. intros j Hj. apply in_seq in Hj. replace (i - (i - j)) with j by lia. reflexivity.
  - rewrite <- (rsum_map_rev _ (seq 0 (S i))), seq_rev, map_map. f_equal. apply map_ext_in. intros j Hj. apply in_seq in Hj. replace (i - (i - j)) with j by lia. reflexivity.
Qed.
(** Weights. *)
Lemma decay_range span : (1 <= span)%R -> (0 <= decay span < 1)%R.
Proof. intros H. unfold decay. assert (0 < 2 / (span + 1))%R by (apply Rdiv_lt_0_compat; lra). assert (2 / (span + 1) <= 1)%R; [|lra]. apply (Rmult_le_reg_r (span + 1)); [lra|]. unfold Rdiv. rewrite Rmult_assoc, Rinv_l; lra. Qed.
Lemma weights_sum d i : (0 <= d)%R -> (1 <= rsum (map (fun j => d ^ j) (seq 0 (i + 1))))%R.
Proof.
  intros Hd. replace (i + 1) with (S i) by lia. cbn [seq map rsum fold_right pow]. assert (0 <= fold_right Rplus 0 (map (fun j => d ^ j) (seq 1 i)))%R; [|lra].
  generalize (seq 1 i). induction l as [|j l IH]; cbn; [lra|]. pose proof (pow_le d j Hd). lra.
Qed.
Lemma ewma_bounds span c i a b : (1 <= span)%R -> i < List.length c -> Forall (fun x => a <= x <= b)%R c -> (a <= ewma span c i <= b)%R.
Proof.
  intros Hs Hi Hc. pose proof (decay_range span Hs) as (Hd & _). pose proof (weights_sum _ i Hd) as HW. unfold ewma. set (W := rsum (map (fun j => decay span ^ j)%R (seq 0 (i + 1)))) in *.
  assert (H : forall l, (a * rsum (map (fun j => decay span ^ j) l) <= rsum (map (fun j => decay span ^ j * row c (i - j)) l) <= b * rsum (map (fun j => decay span ^ j) l))%R).
  { induction l as [|j l IH]; [cbn; lra|]. cbn [map rsum fold_right]. change (fold_right Rplus 0%R (map (fun j => decay span ^ j)%R l)) with (rsum (map (fun j => decay span ^ j)%R l)).
    change (fold_right Rplus 0%R (map (fun j => decay span ^ j * row c (i - j))%R l)) with (rsum (map (fun j => decay span ^ j * row c (i - j))%R l)).
    pose proof (pow_le (decay span) j Hd) as Hp. assert (Hr : (a <= row c (i - j) <= b)%R) by (rewrite Forall_forall in Hc; apply Hc; apply nth_In; lia).
    assert (H1 : (decay span ^ j * a <= decay span ^ j * row c (i - j))%R) by (apply Rmult_le_compat_l; lra). assert (H2 : (decay span ^ j * row c (i - j) <= decay span ^ j * b)%R) by (apply Rmult_le_compat_l; lra). lra. }
  specialize (H (seq 0 (i + 1))). fold W in H. split; apply (Rmult_le_reg_r W); try lra; unfold Rdiv; rewrite Rmult_assoc, Rinv_l; lra.
Qed.
Lemma ewma_formula X fast slow name c : (1 <= fast)%R -> (1 <= slow)%R -> has_column X name c ->
  (exists out, ewma_difference fast slow false name X = Ok out /\ values_from 0 (List.length c) (fun i => ewma fast c i - ewma slow c i)%R out) /\
  (Forall (fun x => 0 <= x)%R c -> exists out, ewma_difference fast slow true name X = Ok out /\ values_from 0 (List.length c) (fun i => (ewma fast c i - ewma slow c i) / (ewma fast c i + 1))%R out).
Proof.
  intros Hf Hs Hc. unfold ewma_difference, has_column, column in *. rewrite Hc. cbn [bind].
  assert (D : values_from 0 (List.length c) (fun i => ewma fast c i - ewma slow c i)%R (zipw esub (ewm_mean fast (map Fin c)) (ewm_mean slow (map Fin c)))).
  { apply (vf_from (Nat.max 0 0)); [reflexivity|]. eapply vf_zipw; [apply ewm_mean_fin|apply ewm_mean_fin|reflexivity|apply esub_nan_r|reflexivity]. }
  split; [eexists; split; [reflexivity|exact D]|]. intros Hp. eexists. split; [reflexivity|]. apply (vf_from (Nat.max 0 0)); [reflexivity|].
  eapply vf_zipw; [exact D|eapply vf_map; [apply ewm_mean_fin|reflexivity|reflexivity]|reflexivity|apply ediv_nan_r|]. intros i Hi. cbv beta. apply ediv_fin.
  assert (Hb : (0 <= ewma fast c i)%R).
  { assert (Hmax : exists b, Forall (fun x => 0 <= x <= b)%R c).
    { clear -Hp. induction c as [|x c IH]; [exists 0%R; constructor|]. inversion Hp as [|? ? H1 H2]; subst. destruct (IH H2) as (b & Hb). exists (Rmax x b). constructor; [split; [exact H1|apply Rmax_l]|].
      apply Forall_forall. intros y Hy. rewrite Forall_forall in Hb. specialize (Hb y Hy). pose proof (Rmax_r x b). lra. }
    destruct Hmax as (b & Hb). apply (ewma_bounds fast c i 0 b Hf ltac:(cbn in Hi; lia) Hb). }
  cbn. lra.
Qed.
Lemma imbalance_formula X fast slow volume_type b s v : has_column X (volume_type ++ "_asset_buy_volume") b -> has_column X (volume_type ++ "_asset_sell_volume") s -> has_column X (volume_type ++ "_asset_volume") v ->
  List.length s = List.length b -> List.length v = List.length b -> Forall (fun x => 0 <= x)%R v ->
  exists out, buy_sell_imbalance fast slow volume_type X = Ok out /\
    values_from 0 (List.length b) (fun i => ((ewma fast b i - ewma fast s i) - (ewma slow b i - ewma slow s i)) / (row v i + 1))%R out.
Proof.
  intros Hb Hs Hv Ls Lv Hp. unfold buy_sell_imbalance, has_column, column in *. rewrite Hb, Hs. cbn [bind]. rewrite Hv. cbn [bind]. eexists. split; [reflexivity|].
  assert (D : forall sp, values_from 0 (List.length b) (fun i => ewma sp b i - ewma sp s i)%R (zipw esub (ewm_mean sp (map Fin b)) (ewm_mean sp (map Fin s)))).
  { intros sp. apply (vf_from (Nat.max 0 0)); [reflexivity|]. eapply vf_zipw; [apply ewm_mean_fin|rewrite <- Ls; apply ewm_mean_fin|reflexivity|apply esub_nan_r|reflexivity]. }
  apply (vf_from (Nat.max (Nat.max 0 0) 0)); [reflexivity|]. eapply vf_zipw; [eapply vf_zipw; [apply (D fast)|apply (D slow)|reflexivity|apply esub_nan_r|reflexivity]| |reflexivity|apply ediv_nan_r|].
  - eapply vf_map; [rewrite <- Lv; apply vf_fin|reflexivity|reflexivity].
  - intros i Hi. cbv beta. apply ediv_fin. rewrite Forall_forall in Hp. assert (0 <= row v i)%R by (apply Hp; apply nth_In; cbn in Hi; lia). cbn. lra.
Qed.

(** ** The z-score transformers *)
Lemma z_scores_ok w l : 2 <= w -> z_scores w l (calc_z_score w l).
Proof.
  intros Hw. assert (L : List.length (calc_z_score w l) = List.length l) by (unfold calc_z_score; rewrite !zipw_length, !rolling_length; lia). split; [exact L|].
  intros i z Hz. assert (Hi : i < List.length l) by (rewrite <- L; apply nth_error_Some; congruence). destruct (c42 w l i Hw Hi) as (z' & E & H). assert (z' = z) by congruence. subst z'.
  destruct (last_values w l i); [|exact H]. destruct H as [H|(H1 & s & -> & -> & _)]; [left; exact H|right]. split; [exact H1|reflexivity].
Qed.
Lemma arrival_z w T X : 2 <= w -> get_transformer "bar_arrival_time" w = Ok T ->
  exists s out, T X = Ok out /\ z_scores w s out /\ values_from 1 (List.length (f_index X)) (fun i => IZR (nth i (f_index X) 0%Z - nth (i - 1) (f_index X) 0%Z)) s.
Proof.
  intros Hw [= <-]. do 2 eexists. split; [reflexivity|]. split; [apply z_scores_ok; exact Hw|]. eapply vf_ext; [|apply (vf_diff 0 (List.length (f_index X)) (fun i => IZR (nth i (f_index X) 0%Z)))].
  - intros i Hi. cbv beta. now rewrite minus_IZR.
  - split; [apply map_length|]. intros i Hi. rewrite nth_error_map. rewrite (nth_error_nth' _ 0%Z) by exact Hi. reflexivity.
Qed.
Lemma buy_sell_z w T X b s : 2 <= w -> get_transformer "buy_sell_diff" w = Ok T -> has_column X "quote_asset_buy_volume" b -> has_column X "quote_asset_sell_volume" s -> List.length s = List.length b ->
  exists l out, T X = Ok out /\ z_scores w l out /\ values_from 0 (List.length b) (fun i => row b i - row s i)%R l.
Proof.
  intros Hw [= <-] Hb Hs L. unfold z_score_transform, buy_sell_diff, has_column, column in *. rewrite Hb, Hs. cbn [bind]. do 2 eexists. split; [reflexivity|]. split; [apply z_scores_ok; exact Hw|].
  apply (vf_from (Nat.max 0 0)); [reflexivity|]. eapply vf_zipw; [apply vf_fin|rewrite <- L; apply vf_fin|reflexivity|apply esub_nan_r|reflexivity].
Qed.
Lemma average_buy_z w T X b n : 2 <= w -> get_transformer "average_buy_size" w = Ok T -> has_column X "quote_asset_buy_volume" b -> has_column X "num_buy_ticks" n -> List.length n = List.length b -> Forall (fun x => 0 < x)%R n ->
  exists l out, T X = Ok out /\ z_scores w l out /\ values_from 0 (List.length b) (fun i => row b i / row n i)%R l.
Proof.
  intros Hw [= <-] Hb Hs L Hp. unfold z_score_transform, average_buy_size, has_column, column in *. rewrite Hb, Hs. cbn [bind]. do 2 eexists. split; [reflexivity|]. split; [apply z_scores_ok; exact Hw|].
  apply (vf_from (Nat.max 0 0)); [reflexivity|]. eapply vf_zipw; [apply vf_fin|rewrite <- L; apply vf_fin|reflexivity|apply ediv_nan_r|]. intros i Hi. apply ediv_fin. apply Rgt_not_eq. apply positive_row; auto; cbn in Hi; lia.
Qed.
Lemma high_low_z w T X h l : 2 <= w -> get_transformer "high_to_low_ratio" w = Ok T -> has_column X "high" h -> has_column X "low" l -> List.length l = List.length h -> Forall (fun x => 0 < x)%R l ->
  exists s out, T X = Ok out /\ z_scores w s out /\ values_from 0 (List.length h) (fun i => row h i / row l i)%R s.
Proof.
  intros Hw [= <-] Hb Hs L Hp. unfold z_score_transform, high_to_low_ratio, has_column, column in *. rewrite Hb, Hs. cbn [bind]. do 2 eexists. split; [reflexivity|]. split; [apply z_scores_ok; exact Hw|].
  apply (vf_from (Nat.max 0 0)); [reflexivity|]. eapply vf_zipw; [apply vf_fin|rewrite <- L; apply vf_fin|reflexivity|apply ediv_nan_r|]. intros i Hi. apply ediv_fin. apply Rgt_not_eq. apply positive_row; auto; cbn in Hi; lia.
Qed.
Lemma bsi_ok vt : bsi_construct vt = Ok vt /\ (vt = "quote" \/ vt = "base")%string \/ bsi_construct vt = Err ValueError /\ vt <> "quote"%string /\ vt <> "base"%string.
Proof.
  unfold bsi_construct. cbn [existsb]. destruct (String.eqb_spec vt "quote"); [left; auto|]. destruct (String.eqb_spec vt "base"); [left; auto|]. right. auto.
Qed.
