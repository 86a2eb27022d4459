(** Proofs for active averages and bet sizes. *)
From Coq Require Import Reals Lra Lia ZArith String Sorting.Sorted.
From Verif Require Import PreludeFacts Series Weights_Model Weights_Spec Weights_Proofs2 Bet_Model Bet_Spec Bet_Proofs.
Local Open Scope nat_scope.

(** ** Timestamps *)
Lemma to_ms_floor t : (to_ms t * 1000000 <= t < (to_ms t + 1) * 1000000)%Z.
Proof. unfold to_ms. pose proof (Z.div_mod t 1000000 ltac:(lia)). pose proof (Z.mod_pos_bound t 1000000 ltac:(lia)). lia. Qed.
Lemma to_ms_mono a b : (a <= b)%Z -> (to_ms a <= to_ms b)%Z.
Proof. intros. unfold to_ms. apply Z.div_le_mono; lia. Qed.
Lemma to_ms_eq a b : to_ms a = to_ms b <-> (exists k, k * 1000000 <= a < (k + 1) * 1000000 /\ k * 1000000 <= b < (k + 1) * 1000000)%Z.
Proof.
  split.
  - intros E. exists (to_ms a). split; [apply to_ms_floor|]. rewrite E. apply to_ms_floor.
  - intros (k & Ha & Hb). unfold to_ms. rewrite <- (Z.div_unique a 1000000 k (a - k * 1000000)) by lia.
    rewrite <- (Z.div_unique b 1000000 k (b - k * 1000000)) by lia. reflexivity.
Qed.
Lemma to_timestamp_missing t : (to_timestamp t < 0)%Z <-> (t = None \/ exists v, t = Some v /\ v < 0)%Z.
Proof.
  unfold to_timestamp. destruct t as [v|].
  - pose proof (to_ms_floor v). split; [intros; right; exists v; split; auto; lia|]. intros [?|(w & E & H1)]; [discriminate|]. injection E as ->. lia.
  - split; auto. intros _. reflexivity.
Qed.


Lemma whole_le a b : whole_ms a -> whole_ms b -> (to_ms a <=? to_ms b)%Z = (a <=? b)%Z.
Proof.
  unfold whole_ms, to_ms. intros Ha Hb. pose proof (Z.div_mod a 1000000 ltac:(lia)). pose proof (Z.div_mod b 1000000 ltac:(lia)).
  destruct (Z.leb_spec a b), (Z.leb_spec (a / 1000000) (b / 1000000)); auto; lia.
Qed.
Lemma whole_lt a b : whole_ms a -> whole_ms b -> (to_ms a <? to_ms b)%Z = (a <? b)%Z.
Proof.
  unfold whole_ms, to_ms. intros Ha Hb. pose proof (Z.div_mod a 1000000 ltac:(lia)). pose proof (Z.div_mod b 1000000 ltac:(lia)).
  destruct (Z.ltb_spec a b), (Z.ltb_spec (a / 1000000) (b / 1000000)); auto; lia.
Qed.

Lemma zipw_cons {A B C} (f : A -> B -> C) a b x y : zipw f (a :: x) (b :: y) = f a b :: zipw f x y.
Proof. reflexivity. Qed.
Lemma avg_mask ps t : clean_times ps -> whole_ms t ->
  mask_sel (map s_bet (map signal_of ps))
    (zipw (fun s e => (s <=? to_ms t)%Z && ((to_ms t <? e)%Z || (e <? 0)%Z))
      (map (fun s => to_ms (s_start s)) (map signal_of ps)) (map (fun s => to_timestamp (s_end s)) (map signal_of ps))) =
  map Fin (active_bets ps t).
Proof.
  intros Hc Ht. induction ps as [|p ps IH]; [reflexivity|]. specialize (IH (fun q Hq => Hc q (or_intror Hq))).
  cbn [map zipw]. change (s_start (signal_of p)) with (p_start p). change (s_end (signal_of p)) with (p_end p). change (s_bet (signal_of p)) with (Fin (p_bet p)).
  rewrite zipw_cons. cbn [mask_sel]. rewrite IH. unfold active_bets. cbn [filter].
  destruct (Hc p (or_introl eq_refl)) as [Hs He].
  assert ((to_ms (p_start p) <=? to_ms t)%Z && ((to_ms t <? to_timestamp (p_end p))%Z || (to_timestamp (p_end p) <? 0)%Z) = active t p) as ->.
  { unfold active. rewrite whole_le by auto. f_equal. destruct (p_end p) as [e|] eqn:Ee.
    - destruct (He e eq_refl) as [Hw H0]. unfold to_timestamp. rewrite whole_lt by auto.
      destruct (Z.ltb_spec (to_ms e) 0) as [Hneg|]; [|now rewrite orb_false_r]. pose proof (to_ms_floor e). lia.
    - now rewrite orb_comm. }
  destruct (active t p); reflexivity.
Qed.

Lemma avg_at_mean ps t : clean_times ps -> whole_ms t ->
  avg_at (map s_bet (map signal_of ps)) (map (fun s => to_ms (s_start s)) (map signal_of ps)) (map (fun s => to_timestamp (s_end s)) (map signal_of ps)) (to_ms t) =
  Fin (mean_active ps t).
Proof.
  intros Hc Ht. unfold avg_at. cbv zeta. rewrite (avg_mask ps t Hc Ht). unfold mean_active. destruct (active_bets ps t) as [|b l]; [reflexivity|].
  change (map Fin (b :: l)) with (Fin b :: map Fin l) at 1. cbv iota. rewrite esum_fin, map_length.
  assert (INR (List.length (b :: l)) <> 0)%R by (apply not_0_INR; discriminate).
  cbn [ediv aeqb Arith_R a0]. destruct (Req_EM_T _ 0); [easy|]. reflexivity.
Qed.

Definition times_of (sigs : list sig) : list Z :=
  np_uniqueZ (flat_map (fun s => match s_end s with Some e => [e] | None => [] end) sigs ++ map s_start sigs).

Lemma times_change ps t : In t (times_of (map signal_of ps)) <-> change_point ps t.
Proof.
  unfold times_of. rewrite np_uniqueZ_In, in_app_iff, in_flat_map, in_map_iff. unfold change_point. split.
  - intros [(s & Hs & Ht)|(s & E & Hs)].
    + apply in_map_iff in Hs as (p & <- & Hp). cbn [signal_of s_end] in Ht. destruct (p_end p) as [e|] eqn:Ee; [|easy]. destruct Ht as [<-|[]]. exists p. auto.
    + apply in_map_iff in Hs as (p & <- & Hp). exists p. auto.
  - intros (p & Hp & [E|E]).
    + right. exists (signal_of p). split; auto. apply in_map_iff; eauto.
    + left. exists (signal_of p). split; [apply in_map_iff; eauto|]. cbn [signal_of s_end]. rewrite E. now left.
Qed.

Lemma combine_map_r {A B} (f : A -> B) l : combine l (map f l) = map (fun x => (x, f x)) l.
Proof. induction l as [|x l IH]; cbn; congruence. Qed.

Lemma c37 ps : clean_times ps -> exists times, increasingZ times /\ (forall t, In t times <-> change_point ps t) /\
  avg_active_signals (map signal_of ps) = map (fun t => (t, Fin (mean_active ps t))) times.
Proof.
  intros Hc. exists (times_of (map signal_of ps)). split; [apply np_uniqueZ_inc|]. split; [apply times_change|].
  unfold avg_active_signals. fold (times_of (map signal_of ps)). cbv zeta. rewrite map_map, combine_map_r. apply map_ext_in. intros t Ht.
  apply times_change in Ht as (p & Hp & Ht). rewrite avg_at_mean; auto. destruct (Hc p Hp) as [Hs He]. destruct Ht as [<-|E]; [exact Hs|now apply He].
Qed.

Lemma rsum_between (lo hi : R) l : (forall x, In x l -> (lo <= x <= hi)%R) -> (INR (List.length l) * lo <= rsum l <= INR (List.length l) * hi)%R.
Proof.
  induction l as [|x l IH]; intros H; [cbn; lra|]. cbn [List.length]. rewrite S_INR. cbn [rsum fold_right]. fold (rsum l).
  pose proof (H x (or_introl eq_refl)). specialize (IH (fun y Hy => H y (or_intror Hy))). lra.
Qed.
Lemma c37_between ps t lo hi : active_bets ps t <> [] -> (forall x, In x (active_bets ps t) -> (lo <= x <= hi)%R) -> (lo <= mean_active ps t <= hi)%R.
Proof.
  intros Hne H. unfold mean_active. pose proof (rsum_between lo hi _ H) as Hb. destruct (active_bets ps t) as [|b l]; [easy|].
  assert (0 < INR (List.length (b :: l)))%R by (apply lt_0_INR; cbn; lia).
  split; [apply (Rmult_le_reg_r (INR (List.length (b :: l))))|apply (Rmult_le_reg_r (INR (List.length (b :: l))))]; auto;
    unfold Rdiv; rewrite Rmult_assoc, Rinv_l, Rmult_1_r by lra; lra.
Qed.
Lemma mean_bound ps t : (forall p, In p ps -> (Rabs (p_bet p) <= 1)%R) -> (-1 <= mean_active ps t <= 1)%R.
Proof.
  intros H. destruct (active_bets ps t) as [|b l] eqn:E.
  - unfold mean_active. rewrite E. lra.
  - apply c37_between; [congruence|]. intros x Hx. unfold active_bets in Hx. apply in_map_iff in Hx as (p & <- & Hp). apply filter_In in Hp as [Hp _].
    specialize (H p Hp). unfold Rabs in H. destruct (Rcase_abs _); lra.
Qed.

(** Two times in order. *)
Lemma two_times s e : (s < e)%Z -> np_uniqueZ [e; s] = [s; e].
Proof.
  intros H. apply increasingZ_ext; [apply np_uniqueZ_inc| |intros x; rewrite np_uniqueZ_In; cbn; tauto].
  repeat constructor; auto.
Qed.
Lemma one_avg s e (b : R) t : avg_at [Fin b] [to_ms s] [to_ms e] (to_ms t) =
  if (to_ms s <=? to_ms t)%Z && ((to_ms t <? to_ms e)%Z || (to_ms e <? 0)%Z) then Fin b else Fin 0%R.
Proof.
  unfold avg_at. rewrite zipw_cons. cbn [mask_sel zipw combine map]. destruct (_ && _); [|reflexivity]. unfold esum. cbn [fold_left eadd aadd Arith_R a0 List.length INR ediv aeqb].
  destruct (Req_EM_T 1 0); [lra|]. f_equal. unfold adiv. cbn. field.
Qed.
Lemma c37_old s e b : (s < e < 0)%Z ->
  avg_active_signals (map signal_of [((s, Some e), b)]) = [(s, Fin b); (e, Fin b)] /\ mean_active [((s, Some e), b)] e = 0%R.
Proof.
  intros H. split.
  - unfold avg_active_signals. cbn [map flat_map signal_of s_end s_start s_bet p_start p_end p_bet fst snd app]. rewrite two_times by lia.
    cbn [map combine]. change (to_timestamp (Some e)) with (to_ms e). rewrite !one_avg.
    assert (to_ms e < 0)%Z as Hn by (pose proof (to_ms_floor e); lia).
    apply Z.ltb_lt in Hn. rewrite Hn, !orb_true_r, !andb_true_r. rewrite (proj2 (Z.leb_le (to_ms s) (to_ms s))) by lia.
    rewrite (proj2 (Z.leb_le (to_ms s) (to_ms e))) by (apply to_ms_mono; lia). reflexivity.
  - unfold mean_active, active_bets, active. cbn. rewrite Z.ltb_irrefl, andb_false_r. reflexivity.
Qed.
Lemma c37_same_ms s e b : (0 <= s < e)%Z -> to_ms s = to_ms e ->
  avg_active_signals (map signal_of [((s, Some e), b)]) = [(s, Fin 0%R); (e, Fin 0%R)] /\ mean_active [((s, Some e), b)] s = b.
Proof.
  intros H E. split.
  - unfold avg_active_signals. cbn [map flat_map signal_of s_end s_start s_bet p_start p_end p_bet fst snd app]. rewrite two_times by lia.
    cbn [map combine]. change (to_timestamp (Some e)) with (to_ms e). rewrite !one_avg. rewrite E, Z.ltb_irrefl. destruct (Z.ltb_spec (to_ms e) 0) as [Hn|]; [pose proof (to_ms_floor e); lia|].
    cbn [orb]. now rewrite andb_false_r.
  - unfold mean_active, active_bets, active. cbn. rewrite Z.leb_refl. rewrite (proj2 (Z.ltb_lt s e)) by lia. cbn. lra.
Qed.

(** ** Confidence *)
Section Confidence.
  Variable cdf : R -> R.
  Hypothesis Hcdf : cdf_ok cdf.
  Variable n : nat.
  Hypothesis Hn : 2 <= n.
  Local Open Scope R_scope.

  Lemma inv_n : 0 < 1 / INR n <= 1 / 2.
  Proof.
    apply le_INR in Hn. cbn in Hn. assert (0 < INR n) by lra. split; [apply Rdiv_lt_0_compat; lra|].
    unfold Rdiv. rewrite !Rmult_1_l. apply Rinv_le_contravar; lra.
  Qed.
  Lemma z_split p : 0 < p < 1 -> z_stat n p = (1 - 1 / INR n) * sqrt (p / (1 - p)) - 1 / INR n * sqrt ((1 - p) / p).
  Proof.
    intros Hp. unfold z_stat. set (c := 1 / INR n). rewrite sqrt_mult, !sqrt_div by lra.
    pose proof (sqrt_lt_R0 p ltac:(lra)). pose proof (sqrt_lt_R0 (1 - p) ltac:(lra)).
    pose proof (sqrt_sqrt p ltac:(lra)) as E1. pose proof (sqrt_sqrt (1 - p) ltac:(lra)) as E2.
    apply (Rmult_eq_reg_r (sqrt p * sqrt (1 - p))); [|nra]. field_simplify; [|lra|lra].
    replace (sqrt p ^ 2) with (sqrt p * sqrt p) by ring. replace (sqrt (1 - p) ^ 2) with (sqrt (1 - p) * sqrt (1 - p)) by ring. rewrite E1, E2. lra.
  Qed.
  Lemma z_mono p q : 0 < p < 1 -> 0 < q < 1 -> p < q -> z_stat n p < z_stat n q.
  Proof.
    intros Hp Hq H. rewrite !z_split by auto. pose proof inv_n as Hc. set (c := 1 / INR n) in *.
    assert (A : sqrt (p / (1 - p)) < sqrt (q / (1 - q))).
    { apply sqrt_lt_1_alt. split; [left; apply Rdiv_lt_0_compat; lra|].
      apply (Rmult_lt_reg_r ((1 - p) * (1 - q))); [nra|]. field_simplify; try lra. }
    assert (B : sqrt ((1 - q) / q) < sqrt ((1 - p) / p)).
    { apply sqrt_lt_1_alt. split; [left; apply Rdiv_lt_0_compat; lra|].
      apply (Rmult_lt_reg_r (p * q)); [nra|]. field_simplify; try lra. }
    nra.
  Qed.
  Lemma cdf_half : cdf 0 = 1 / 2.
  Proof. destruct Hcdf as (_ & Hs & _). specialize (Hs 0). rewrite Ropp_0 in Hs. lra. Qed.

  Lemma confidence_range p : -1 <= confidence cdf n p <= 1.
  Proof.
    unfold confidence. destruct (Req_EM_T p 0); [lra|]. destruct (Req_EM_T p 1); [lra|]. destruct Hcdf as (_ & _ & H). specialize (H (z_stat n p)). lra.
  Qed.
  Lemma confidence_zero : confidence cdf n (1 / INR n) = 0.
  Proof.
    pose proof inv_n. unfold confidence. destruct (Req_EM_T (1 / INR n) 0); [lra|]. destruct (Req_EM_T (1 / INR n) 1); [lra|].
    assert (z_stat n (1 / INR n) = 0) as ->; [|rewrite cdf_half; lra]. unfold z_stat. rewrite Rminus_diag_eq by auto. unfold Rdiv. lra.
  Qed.
  Lemma confidence_mono p q : 0 <= p -> p < q -> q <= 1 -> confidence cdf n p < confidence cdf n q.
  Proof.
    intros H1 H2 H3. unfold confidence. destruct Hcdf as (Hm & _ & Hr).
    pose proof (Hr (z_stat n p)). pose proof (Hr (z_stat n q)).
    destruct (Req_EM_T p 0), (Req_EM_T q 0), (Req_EM_T p 1), (Req_EM_T q 1); try lra.
    pose proof (Hm _ _ (z_mono p q ltac:(lra) ltac:(lra) H2)). lra.
  Qed.

  Lemma signed_bet_fin r p (d : R) : b_prob r = Fin p -> b_pred r = Fin d -> 0 <= p <= 1 -> signed_bet cdf n r = Fin (d * confidence cdf n p).
  Proof.
    intros Ep Ed Hp. pose proof inv_n as Hc. unfold signed_bet. rewrite Ep, Ed. unfold esub. cbn [eopp eadd emul aopp aadd amul Arith_R].
    set (c := 1 / INR n) in *. unfold pow_half. cbn [esqrt]. destruct (Rlt_dec (p * (1 + - p)) 0); [nra|]. unfold confidence.
    destruct (Req_EM_T p 0) as [->|N0].
    - rewrite Rmult_0_l, sqrt_0. cbn [ediv aeqb Arith_R a0]. destruct (Req_EM_T 0 0); [|lra]. unfold asign. cbn [altb Arith_R a0].
      destruct (Rlt_dec (0 + - c) 0); [|lra]. cbn [signed_inf norm_cdf emul eadd amul aadd Arith_R]. f_equal. lra.
    - destruct (Req_EM_T p 1) as [->|N1].
      + replace (1 * (1 + - (1))) with 0 by lra. rewrite sqrt_0. cbn [ediv aeqb Arith_R a0]. destruct (Req_EM_T 0 0); [|lra]. unfold asign. cbn [altb Arith_R a0].
        destruct (Rlt_dec (1 + - c) 0); [lra|]. destruct (Rlt_dec 0 (1 + - c)); [|lra]. cbn [signed_inf norm_cdf emul eadd amul aadd Arith_R]. f_equal. lra.
      + assert (0 < p * (1 + - p)) by nra. pose proof (sqrt_lt_R0 _ H). cbn [ediv aeqb Arith_R a0]. destruct (Req_EM_T (sqrt (p * (1 + - p))) 0); [lra|].
        cbn [norm_cdf emul eadd amul aadd Arith_R]. f_equal.
  Qed.
End Confidence.

(** Probabilities without a size. *)
Lemma signed_bet_outside cdf n r p : b_prob r = Fin p -> ~ (0 <= p <= 1)%R -> signed_bet cdf n r = NaN.
Proof.
  intros Ep Hp. unfold signed_bet. rewrite Ep. unfold esub, pow_half. cbn [eopp eadd emul aopp aadd amul Arith_R esqrt].
  destruct (Rlt_dec (p * (1 + - p)) 0) as [_|H]; [|exfalso; apply H; nra]. cbn [ediv norm_cdf emul eadd]. now destruct (b_pred r).
Qed.
Lemma signed_bet_one_class cdf r : b_prob r = Fin 1%R -> signed_bet cdf 1 r = NaN.
Proof.
  intros Ep. unfold signed_bet. rewrite Ep. unfold esub, pow_half. cbn [eopp eadd emul aopp aadd amul Arith_R esqrt INR].
  replace (1 * (1 + - (1)))%R with 0%R by lra. replace (1 + - (1 / 1))%R with 0%R by lra. destruct (Rlt_dec 0 0); [lra|]. rewrite sqrt_0.
  cbn [ediv aeqb Arith_R a0]. destruct (Req_EM_T 0 0); [|lra]. unfold asign. cbn [altb Arith_R a0]. destruct (Rlt_dec 0 0); [lra|].
  cbn [signed_inf norm_cdf emul eadd]. now destruct (b_pred r).
Qed.

Lemma logistic_ok : cdf_ok logistic.
Proof.
  assert (Hp : forall x, (0 < 1 + exp x)%R) by (intros x; pose proof (exp_pos x); lra).
  split; [|split].
  - intros x y H. apply exp_increasing in H. unfold logistic. pose proof (Hp x). pose proof (Hp y). pose proof (exp_pos x).
    apply (Rmult_lt_reg_r ((1 + exp x) * (1 + exp y))); [nra|]. field_simplify; lra.
  - intros x. unfold logistic. rewrite exp_Ropp. pose proof (Hp x). pose proof (exp_pos x). field. lra.
  - intros x. unfold logistic. pose proof (Hp x). pose proof (exp_pos x). split; [apply Rdiv_lt_0_compat; lra|].
    apply (Rmult_lt_reg_r (1 + exp x)); [lra|]. unfold Rdiv. rewrite Rmult_assoc, Rinv_l; lra.
Qed.
