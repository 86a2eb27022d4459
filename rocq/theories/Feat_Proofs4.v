(** Proofs: rolling z-score, VPIN and the microstructural estimators. *)
From Coq Require Import Reals Lra Lia ZArith String.
From Verif Require Import PreludeFacts Series DailyVol_Model Feat_Model Feat_Spec Feat_Proofs Feat_Proofs2 Feat_Proofs3.
Local Open Scope nat_scope.

(** ** Sums *)
Lemma rsum_app a b : rsum (a ++ b) = (rsum a + rsum b)%R.
Proof. unfold rsum. induction a as [|x a IH]; cbn; [lra|]. rewrite IH. lra. Qed.
Lemma rsum_map_affine a b l : rsum (map (fun x => a * x + b)%R l) = (a * rsum l + INR (List.length l) * b)%R.
Proof.
  unfold rsum. induction l as [|x l IH]; cbn [map fold_right List.length]; [cbn; lra|]. rewrite S_INR, IH. lra.
Qed.
Lemma rsum_scale {A} (f : A -> R) k l : rsum (map (fun x => k * f x)%R l) = (k * rsum (map f l))%R.
Proof. unfold rsum. induction l as [|x l IH]; cbn [map fold_right]; [lra|]. rewrite IH. lra. Qed.
Lemma rsum_plus {A} (f g : A -> R) l : rsum (map (fun x => f x + g x)%R l) = (rsum (map f l) + rsum (map g l))%R.
Proof. unfold rsum. induction l as [|x l IH]; cbn [map fold_right]; [lra|]. rewrite IH. lra. Qed.
Lemma rsum_const {A} (k : R) (l : list A) : rsum (map (fun _ => k) l) = (INR (List.length l) * k)%R.
Proof. unfold rsum. induction l as [|x l IH]; cbn [map fold_right List.length]; [cbn; lra|]. rewrite S_INR, IH. lra. Qed.
Lemma rsum_nonneg l : (forall x, In x l -> (0 <= x)%R) -> (0 <= rsum l)%R.
Proof. unfold rsum. induction l as [|x l IH]; intros H; cbn [fold_right]; [lra|]. specialize (IH (fun y Hy => H y (or_intror Hy))). specialize (H x (or_introl eq_refl)). lra. Qed.
Lemma rsum_zero l : (forall x, In x l -> (0 <= x)%R) -> rsum l = 0%R -> forall x, In x l -> x = 0%R.
Proof.
  induction l as [|y l IH]; intros H E x Hx; [easy|]. unfold rsum in E. cbn [fold_right] in E. fold (rsum l) in E.
  pose proof (rsum_nonneg l (fun z Hz => H z (or_intror Hz))). pose proof (H y (or_introl eq_refl)).
  destruct Hx as [->|Hx]; [lra|]. apply IH; auto; [intros; apply H; now right|lra].
Qed.
Lemma rsum_le {A} (f g : A -> R) l : (forall x, In x l -> (f x <= g x)%R) -> (rsum (map f l) <= rsum (map g l))%R.
Proof.
  unfold rsum. induction l as [|x l IH]; intros H; cbn [map fold_right]; [lra|]. specialize (IH (fun y Hy => H y (or_intror Hy))). specialize (H x (or_introl eq_refl)). lra.
Qed.
Lemma cauchy l : (rsum l * rsum l <= INR (List.length l) * rsum (map (fun x => x * x)%R l))%R.
Proof.
  induction l as [|x l IH]; cbn [List.length map]; [cbn; lra|]. rewrite S_INR. unfold rsum in *. cbn [fold_right]. set (s := fold_right Rplus 0%R l) in *.
  set (q := fold_right Rplus 0%R (map (fun x => x * x)%R l)) in *.
  pose proof (pos_INR (List.length l)) as Hn. set (n := INR (List.length l)) in *.
  (* (x+s)^2 <= (n+1)(x^2+q): 2 x s <= n x^2 + q, from (s - n x)^2 >= 0 when n > 0 *)
  destruct (Req_dec n 0) as [E|E].
  - assert (l = []) as ->. { destruct l; auto. unfold n in E. cbn [List.length] in E. rewrite S_INR in E. pose proof (pos_INR (List.length l)). lra. }
    unfold s, q, n. cbn. lra.
  - assert (0 < n)%R by lra. assert (H1 : (0 <= (s - n * x) * (s - n * x))%R) by (apply Rle_0_sqr).
    assert (2 * x * s <= n * (x * x) + q)%R; [|nra]. apply (Rmult_le_reg_l n); auto. nra.
Qed.

(** ** z-score *)
Lemma deviations v : v <> [] -> rsum (map (fun x => x - average v)%R v) = 0%R.
Proof.
  intros Hv. assert (0 < INR (List.length v))%R by (apply lt_0_INR; destruct v; [easy|cbn; lia]).
  rewrite (map_ext _ (fun x => 1 * x + - average v)%R) by (intros; lra). rewrite rsum_map_affine. unfold average. field. lra.
Qed.
Lemma last_dev v x : (INR (S (List.length v)) * ((x - average (v ++ [x])) * (x - average (v ++ [x]))) <= INR (List.length v) * deviation_sum (v ++ [x]))%R.
Proof.
  set (m := average (v ++ [x])). pose proof (deviations (v ++ [x]) ltac:(now destruct v)) as Hd. fold m in Hd. unfold deviation_sum. fold m.
  assert (H1 : forall y, rsum [y] = y) by (intros; unfold rsum; cbn; lra).
  rewrite !map_app, !rsum_app in *. cbn [map] in *. rewrite !H1 in *.
  pose proof (cauchy (map (fun x => x - m)%R v)) as Hc. rewrite map_length, map_map in Hc.
  set (q := rsum (map (fun x => (x - m) * (x - m))%R v)) in *. rewrite S_INR. pose proof (pos_INR (List.length v)).
  set (sv := rsum (map (fun x => x - m)%R v)) in *. assert (sv = - (x - m))%R as E by lra. rewrite E in Hc. nra.
Qed.
Lemma deviation_nonneg v : (0 <= deviation_sum v)%R.
Proof. apply rsum_nonneg. intros y Hy. apply in_map_iff in Hy as (x & <- & _). apply Rle_0_sqr. Qed.
Lemma deviation_zero v : v <> [] -> (deviation_sum v = 0%R <-> constant v).
Proof.
  intros Hv. split.
  - intros H. exists (average v). intros y Hy. assert ((y - average v) * (y - average v) = 0)%R.
    { apply (rsum_zero (map (fun x => (x - average v) * (x - average v))%R v)); auto.
      - intros z Hz. apply in_map_iff in Hz as (t & <- & _). apply Rle_0_sqr.
      - apply in_map_iff. eauto. }
    nra.
  - intros [x Hx]. assert (Ev : v = map (fun _ => x) v).
    { clear Hv. induction v as [|y v IH]; [reflexivity|]. cbn [map]. rewrite (Hx y (or_introl eq_refl)) at 1. f_equal. apply IH. intros; apply Hx; now right. }
    assert (Ea : average v = x).
    { unfold average. rewrite Ev at 1. rewrite rsum_const. assert (0 < INR (List.length v))%R by (apply lt_0_INR; destruct v; [easy|cbn; lia]). field. lra. }
    unfold deviation_sum. rewrite Ea. rewrite (map_ext_in _ (fun _ => 0%R)); [rewrite rsum_const; lra|]. intros y Hy. rewrite (Hx y Hy). lra.
Qed.

Lemma last_values_last w l i v : 1 <= w -> last_values w l i = Some v -> exists u x, v = u ++ [x] /\ nth_error l i = Some (Fin x).
Proof.
  intros Hw E. destruct (last_values_length _ _ _ _ E) as [Hl Hi]. unfold last_values in E. destruct (Nat.ltb_spec (i + 1) w); [discriminate|].
  assert (Es : seq 0 w = seq 0 (w - 1) ++ [w - 1]) by (replace w with (w - 1 + 1) at 1 by lia; rewrite seq_app; reflexivity).
  rewrite Es, map_app in E. cbn [map] in E. replace (i + 1 - w + (w - 1)) with i in E by lia.
  assert (Hap : forall a b, all_numbers (a ++ [b]) = Some v -> exists u x, v = u ++ [x] /\ b = Fin x).
  { clear. intros a. revert v. induction a as [|c a IH]; intros v b; cbn [app all_numbers].
    - destruct b; cbn; intros H; try discriminate. injection H as <-. exists [], a. auto.
    - destruct c; try discriminate. destruct (all_numbers (a ++ [b])) eqn:E; cbn; [|discriminate]. intros [= <-]. destruct (IH _ _ E) as (u & x & -> & ->). exists (a0 :: u), x. auto. }
  destruct (Hap _ _ E) as (u & x & -> & En). exists u, x. split; auto.
  destruct (nth_error l i) eqn:Ei; [apply (nth_error_nth _ _ NaN) in Ei; congruence|]. exfalso. apply nth_error_None in Ei. rewrite nth_overflow in En by auto. discriminate.
Qed.

Lemma c42 w l i : 2 <= w -> i < List.length l -> exists z, nth_error (calc_z_score w l) i = Some z /\
  match last_values w l i with
  | None => z = NaN
  | Some v => constant v /\ z = NaN \/
              ~ constant v /\ exists s, z = Fin s /\ s = ((last v 0 - average v) / sample_sd v)%R /\ (Rabs s <= (INR w - 1) / sqrt (INR w))%R
  end.
Proof.
  intros Hw Hi. unfold calc_z_score. rewrite !zipw_nth, !rolling_nth by lia. destruct (nth_error l i) as [xi|] eqn:Exi; [|apply nth_error_None in Exi; lia].
  eexists. split; [reflexivity|]. destruct (last_values w l i) as [v|] eqn:E; [|now destruct (esub xi NaN)].
  destruct (last_values_length _ _ _ _ E) as [Hl Hi']. destruct (last_values_last w l i v ltac:(lia) E) as (u & x & Ev & Ex). rewrite Exi in Ex. injection Ex as ->.
  assert (Hne : v <> []) by (rewrite Ev; now destruct u).
  assert (agg_mean v = Fin (average v)) as -> by (destruct v; [easy|reflexivity]).
  assert (agg_std v = Fin (sample_sd v)) as ->.
  { unfold agg_std. destruct (Nat.leb_spec (List.length v) 1); [lia|]. reflexivity. }
  unfold esub. cbn [eopp eadd ediv aopp aadd aeqb Arith_R a0].
  assert (HW : (2 <= INR w)%R) by (apply le_INR in Hw; exact Hw).
  pose proof (deviation_nonneg v) as Hd0. pose proof (deviation_zero v Hne) as Hz.
  assert (Hlast : last v 0%R = x) by (rewrite Ev; apply last_last).
  destruct (Req_EM_T (sample_sd v) 0) as [E0|E0].
  - left. assert (Hdz : deviation_sum v = 0%R).
    { unfold sample_sd in E0. rewrite Hl in E0. apply sqrt_eq_0 in E0; [|apply Rmult_le_pos; auto; left; apply Rinv_0_lt_compat; lra].
      apply Rmult_integral in E0 as [E0|E0]; auto. assert (0 < / (INR w - 1))%R by (apply Rinv_0_lt_compat; lra). lra. }
    assert (Hc : constant v) by now apply Hz. split; auto.
    assert (x + - average v = 0)%R as ->.
    { destruct Hc as [k Hk]. assert (x = k) by (apply Hk; rewrite Ev; apply in_or_app; right; now left). subst k. unfold average.
      assert (Ev' : v = map (fun _ => x) v).
      { clear - Hk. induction v as [|y v IH]; [reflexivity|]. cbn [map]. rewrite (Hk y (or_introl eq_refl)) at 1. f_equal. apply IH. intros; apply Hk; now right. }
      rewrite Ev' at 1. rewrite rsum_const, Hl. field. lra. }
    unfold asign. cbn [altb Arith_R a0]. destruct (Rlt_dec 0 0); [lra|]. reflexivity.
  - right. split.
    { intros Hc. apply Hz in Hc. apply E0. unfold sample_sd. rewrite Hc. unfold Rdiv. rewrite Rmult_0_l. apply sqrt_0. }
    eexists. split; [reflexivity|]. rewrite Hlast. split; [reflexivity|]. change (adiv (x + - average v) (sample_sd v))%R with ((x - average v) / sample_sd v)%R.
    pose proof (last_dev u x) as Hb. rewrite <- Ev in Hb.
    assert (Hu : List.length u = w - 1) by (rewrite Ev, app_length in Hl; cbn in Hl; lia).
    rewrite Hu in Hb. replace (S (w - 1)) with w in Hb by lia. rewrite minus_INR in Hb by lia. change (INR 1) with 1%R in Hb.
    assert (Hs : (0 < sample_sd v)%R). { pose proof (sqrt_pos (deviation_sum v / (INR (List.length v) - 1))). unfold sample_sd in *. lra. }
    assert (Hs2 : (sample_sd v * sample_sd v = deviation_sum v / (INR w - 1))%R).
    { unfold sample_sd. rewrite Hl. apply sqrt_sqrt. apply Rmult_le_pos; auto. left. apply Rinv_0_lt_compat. lra. }
    assert (Hsw : (0 < sqrt (INR w))%R) by (apply sqrt_lt_R0; lra).
    assert (Hsw2 : (sqrt (INR w) * sqrt (INR w) = INR w)%R) by (apply sqrt_sqrt; lra).
    apply Rsqr_incr_0_var; [|apply Rmult_le_pos; [lra|left; now apply Rinv_0_lt_compat]]. rewrite <- Rsqr_abs. unfold Rsqr.
    replace ((x - average v) / sample_sd v * ((x - average v) / sample_sd v))%R with (((x - average v) * (x - average v)) / (sample_sd v * sample_sd v))%R by (field; lra).
    replace ((INR w - 1) / sqrt (INR w) * ((INR w - 1) / sqrt (INR w)))%R with (((INR w - 1) * (INR w - 1)) / (sqrt (INR w) * sqrt (INR w)))%R by (field; lra).
    rewrite Hs2, Hsw2. assert (Hdp : (0 < deviation_sum v)%R).
    { destruct Hd0 as [|E1]; auto. exfalso. rewrite <- E1 in Hs2. unfold Rdiv in Hs2. rewrite Rmult_0_l in Hs2. nra. }
    set (D := deviation_sum v) in *. set (X := ((x - average v) * (x - average v))%R) in *.
    replace (X / (D / (INR w - 1)))%R with ((X * (INR w - 1)) / D)%R by (field; lra).
    apply (Rmult_le_reg_r D); auto. unfold Rdiv at 1. rewrite Rmult_assoc, Rinv_l, Rmult_1_r by lra.
    apply (Rmult_le_reg_r (INR w)); [lra|].
    replace ((INR w - 1) * (INR w - 1) / INR w * D * INR w)%R with ((INR w - 1) * ((INR w - 1) * D))%R by (field; lra).
    replace (X * (INR w - 1) * INR w)%R with ((INR w - 1) * (INR w * X))%R by ring. apply Rmult_le_compat_l; lra.
Qed.

(** Affine invariance. *)
Lemma all_numbers_affine a b l : all_numbers (affine a b l) = option_map (map (fun x => a * x + b)%R) (all_numbers l).
Proof.
  unfold affine. induction l as [|[x| | |] l IH]; cbn; auto. rewrite IH. now destruct (all_numbers l).
Qed.
Lemma last_values_affine a b w l i : w <= List.length l -> i < List.length l -> last_values w (affine a b l) i = option_map (map (fun x => a * x + b)%R) (last_values w l i).
Proof.
  intros Hw Hi. unfold last_values. destruct (Nat.ltb_spec (i + 1) w); [reflexivity|]. rewrite <- all_numbers_affine. f_equal. unfold affine. rewrite map_map.
  apply map_ext_in. intros j Hj. apply in_seq in Hj. set (f := fun x : ext R => match x with Fin v => Fin (a * v + b)%R | _ => x end).
  change (NaN (A := R)) with (f NaN) at 1. now rewrite map_nth.
Qed.
Lemma average_affine a b v : v <> [] -> average (map (fun x => a * x + b)%R v) = (a * average v + b)%R.
Proof.
  intros Hv. unfold average. rewrite map_length, rsum_map_affine. assert (0 < INR (List.length v))%R by (apply lt_0_INR; destruct v; [easy|cbn; lia]). field. lra.
Qed.
Lemma sd_affine a b v : (0 < a)%R -> 2 <= List.length v -> sample_sd (map (fun x => a * x + b)%R v) = (a * sample_sd v)%R.
Proof.
  intros Ha Hv. assert (Hne : v <> []) by (destruct v; cbn in *; [lia|easy]). unfold sample_sd. rewrite map_length.
  assert (E : deviation_sum (map (fun x => a * x + b)%R v) = (a * a * deviation_sum v)%R).
  { unfold deviation_sum. rewrite average_affine by auto. rewrite map_map.
    rewrite (map_ext _ (fun x => (a * a) * ((x - average v) * (x - average v)))%R) by (intros; ring). now rewrite rsum_scale. }
  rewrite E. assert (HL : (2 <= INR (List.length v))%R) by (apply le_INR in Hv; exact Hv).
  replace (a * a * deviation_sum v / (INR (List.length v) - 1))%R with ((a * a) * (deviation_sum v / (INR (List.length v) - 1)))%R by (field; lra).
  rewrite sqrt_mult_alt by nra. rewrite sqrt_square by lra. reflexivity.
Qed.
Lemma c42_affine w l a b : 2 <= w -> (0 < a)%R -> calc_z_score w (affine a b l) = calc_z_score w l.
Proof.
  intros Hw Ha. apply list_ext. intros i. destruct (Nat.lt_ge_cases i (List.length l)) as [Hi|Hi].
  2:{ transitivity (@None (ext R)); [|symmetry]; apply nth_error_None; rewrite z_length; unfold affine; rewrite ?map_length; auto. }
  unfold calc_z_score. rewrite !zipw_nth. rewrite !rolling_nth by (unfold affine; rewrite ?map_length; lia).
  unfold affine at 1. rewrite nth_error_map. destruct (nth_error l i) as [xi|] eqn:Exi; cbn [option_map]; [|reflexivity]. f_equal.
  destruct (Nat.le_gt_cases w (List.length l)) as [Hwl|Hwl].
  2:{ assert (forall l', List.length l' = List.length l -> last_values w l' i = None) as Hn.
      { intros l' Hl'. unfold last_values. destruct (Nat.ltb_spec (i + 1) w); auto. lia. }
      rewrite !Hn; auto. 2:{ unfold affine. now rewrite map_length. } now destruct xi. }
  rewrite last_values_affine by auto. destruct (last_values w l i) as [v|] eqn:E; cbn [option_map]; [|now destruct xi].
  destruct (last_values_length _ _ _ _ E) as [Hl Hi']. destruct (last_values_last w l i v ltac:(lia) E) as (u & x & Ev & Ex). rewrite Exi in Ex. injection Ex as ->.
  assert (Hne : v <> []) by (rewrite Ev; now destruct u).
  assert (Hmean : forall v, v <> [] -> agg_mean v = Fin (average v)) by (intros [|? ?]; [easy|reflexivity]).
  assert (Hstd : forall v, 2 <= List.length v -> agg_std v = Fin (sample_sd v)).
  { intros v' Hv'. unfold agg_std. destruct (Nat.leb_spec (List.length v') 1); [lia|]. reflexivity. }
  rewrite !Hmean by (try apply Hne; now destruct v). rewrite !Hstd by (rewrite ?map_length; lia). rewrite average_affine, sd_affine by (auto; lia).
  unfold esub. cbn [eopp eadd ediv aopp aadd aeqb Arith_R a0].
  destruct (Req_EM_T (sample_sd v) 0) as [E0|E0], (Req_EM_T (a * sample_sd v) 0) as [E1|E1]; try (exfalso; nra).
  - f_equal. unfold asign. cbn [altb Arith_R a0].
    destruct (Rlt_dec (a * x + b + - (a * average v + b)) 0), (Rlt_dec (x + - average v) 0); try (exfalso; nra); auto.
    destruct (Rlt_dec 0 (a * x + b + - (a * average v + b))), (Rlt_dec 0 (x + - average v)); try (exfalso; nra); auto.
  - f_equal. unfold adiv. cbn [amul ainv Arith_R]. field. split; lra.
Qed.

Lemma z_score_window_one l : calc_z_score 1 l = repeat NaN (List.length l).
Proof.
  apply list_ext. intros i. destruct (Nat.lt_ge_cases i (List.length l)) as [Hi|Hi].
  2:{ transitivity (@None (ext R)); [|symmetry]; apply nth_error_None; rewrite ?z_length, ?repeat_length; auto. }
  assert (Hz : nth_error (calc_z_score 1 l) i <> None) by (apply nth_error_Some; now rewrite z_length).
  rewrite nth_error_repeat by exact Hi. unfold calc_z_score in *. rewrite zipw_nth in *. destruct (nth_error (zipw _ _ _) i) as [a|]; [|contradiction].
  rewrite rolling_nth in * by lia. f_equal. replace (match last_values 1 l i with Some v => agg_std v | None => NaN end) with (@NaN R); [now destruct a|].
  destruct (last_values 1 l i) as [v|] eqn:E; [|reflexivity]. destruct (last_values_length _ _ _ _ E) as [Hl _]. unfold agg_std. rewrite Hl. reflexivity.
Qed.
