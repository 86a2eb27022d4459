(** The draw against the exact distribution; more draws, less uniqueness. *)
From Coq Require Import Reals ZArith QArith Qreals Lia Lra List Permutation.
From Flocq Require Import Core.
From Verif Require Import Prelude PreludeFacts QSum QSumFacts Boot_Spec Boot_Model Boot_Proofs Boot_Proofs2 Double_Model Double_Spec Double_Proofs Double_Proofs2
  Double_Boot_Model Double_Boot_Proofs Double_Boot_Proofs2 Double_Boot_Proofs3 Double_Boot_Proofs4.
Import ListNotations.
Local Open Scope R_scope.

Lemma rsum_pos l : l <> [] -> Forall (Rlt 0) l -> 0 < rsum l.
Proof.
  intros Hne H. destruct H as [|x l Hx H]; [congruence|]. cbn.
  assert (0 <= rsum l); [|lra]. apply rsum_nonneg. eapply Forall_impl; [|exact H]. cbn. intros; lra.
Qed.
Lemma Forall_firstn {A} (P : A -> Prop) k l : Forall P l -> Forall P (firstn k l).
Proof. intros H. revert k. induction H; intros [|k]; cbn; auto. Qed.
Lemma Forall2_firstn {A B} (P : A -> B -> Prop) k a b : Forall2 P a b -> Forall2 P (firstn k a) (firstn k b).
Proof. intros H. revert k. induction H; intros [|k]; cbn; auto. Qed.

Lemma cdf_rel p k c : Forall is_double p -> Forall (Rle (bpow radix2 (-62))) p -> INR (length p) <= 4194304 ->
  rel (/ 2 ^ 28) (rsum p) 1 -> nth_error (cdf p) k = Some c -> rel (/ 100000000) c (rsum (firstn (S k) p)).
Proof.
  intros D B Hl Hp Hk. assert (E28 : / 2 ^ 28 = / 268435456) by (rewrite (pow_IZR 2 28); reflexivity). rewrite E28 in Hp.
  pose proof (bpow_gt_0 radix2 (-62)) as P62. pose proof eps64_pos as HE.
  assert (Pp : Forall (Rlt 0) p) by (eapply Forall_impl; [|exact B]; cbn; intros; lra).
  assert (Hlen : (k < length p)%nat) by (rewrite <- cdf_length; apply nth_error_Some; congruence).
  assert (Hne : p <> []) by (destruct p; [cbn in Hlen; lia|discriminate]).
  assert (Hc : cums p <> []) by (destruct p; [congruence|discriminate]).
  assert (step : forall i a, nth_error (cums p) i = Some a -> (i < length p)%nat ->
    rel (/ 1073741824) a (rsum (firstn (S i) p)) /\ bpow radix2 (-62) <= a).
  { intros i a Ha Hi. pose proof (cums_added p i a Ha) as HA.
    assert (firstn (S i) p <> []) as Hf by (destruct p; [congruence|discriminate]).
    assert (length (firstn (S i) p) <= length p)%nat as Lf by (rewrite firstn_length; lia). apply le_INR in Lf.
    assert (INR (length (firstn (S i) p)) * eps64 <= / 2147483648) as Hs.
    { apply Rle_trans with (4194304 * eps64); [apply Rmult_le_compat_r; lra|]. unfold eps64. lra. }
    destruct (added_rel _ _ HA) as (_ & R1).
    - now apply Forall_firstn.
    - apply Forall_firstn. eapply Forall_impl; [|exact Pp]. cbn. intros; lra.
    - apply rsum_pos; auto. now apply Forall_firstn.
    - lra.
    - split; [eapply rel_weaken; [|exact R1]; lra|].
      destruct p as [|x r]; [congruence|]. inversion B as [|? ? Bx Br]; subst.
      assert (x <= a); [|lra].
      assert (N' : Forall (Rle 0) (x :: r)) by (eapply Forall_impl; [|exact Pp]; cbn; intros; lra).
      pose proof (cums_sorted _ D N') as HS. cbn [cums] in *. inversion HS as [|? ? _ HF]; subst.
      destruct i as [|i]; cbn in Ha; [injection Ha as <-; lra|]. rewrite Forall_forall in HF. apply HF. eapply nth_error_In; eauto. }
  rewrite cdf_eq, nth_error_map in Hk. destruct (nth_error (cums p) k) as [a|] eqn:Ea; [|discriminate]. injection Hk as <-.
  destruct (step k a Ea Hlen) as [Ra La].
  pose proof (nth_error_last (cums p) 0 Hc) as Hlast. rewrite cums_length in Hlast.
  destruct (step (length p - 1)%nat _ Hlast) as [RL LL]; [destruct p; [congruence|cbn; lia]|].
  rewrite firstn_all2 in RL by (destruct p; [congruence|cbn; lia]).
  set (L := last (cums p) 0) in *.
  assert (RL1 : rel (/ 200000000) L 1) by (eapply rel_weaken; [|eapply rel_trans; [| |exact RL|exact Hp]]; lra).
  assert (R2 : rel (/ 150000000) (a / L) (rsum (firstn (S k) p) / 1)).
  { eapply rel_weaken; [|eapply rel_div; [| |exact Ra|exact RL1]]; lra. }
  replace (rsum (firstn (S k) p) / 1) with (rsum (firstn (S k) p)) in R2 by field.
  assert (R3 : rel eps64 (to_double (a / L)) (a / L)).
  { apply double_rel. apply Rle_trans with (bpow radix2 (-63)); [apply bpow_le; lia|].
    destruct RL1 as (_ & L1 & L2). apply Rmult_le_reg_r with L; [lra|]. unfold Rdiv. rewrite Rmult_assoc, Rinv_l by lra.
    change (bpow radix2 (-63)) with (/ 9223372036854775808). change (bpow radix2 (-62)) with (/ 4611686018427387904) in La. lra. }
  eapply rel_weaken; [|eapply rel_trans; [| |exact R3|exact R2]]; unfold eps64; lra.
Qed.

Lemma firstn_seq k n : (k <= n)%nat -> firstn k (seq 0 n) = seq 0 k.
Proof.
  intros H. replace n with (k + (n - k))%nat by lia. rewrite seq_app, firstn_app, seq_length, firstn_all2 by (rewrite seq_length; lia).
  now rewrite Nat.sub_diag, app_nil_r.
Qed.

Section Accuracy.
  Variable m : mat.
  Let T := nrows m.
  Let N := ncols m.
  Let cov := entry m.
  Hypothesis HT : (Z.of_nat (nrows m) <= 2 ^ 26)%Z.
  Hypothesis HN : (0 < ncols m)%nat.
  Hypothesis HN' : (Z.of_nat (ncols m) <= 2 ^ 22)%Z.
  Variable np_sum : list R -> R.
  Hypothesis Hsum : some_order np_sum.

  Lemma draw_interval drawn x j : enough drawn -> 0 <= x < 1 -> searchsorted (cdf (probabilities m np_sum drawn)) x = j ->
    let F k := Q2R (qsum (map (draw_probability T cov N drawn) (seq 0 k))) in
    F j * (1 - / 2 ^ 19) <= x < F (S j) * (1 + / 2 ^ 19).
  Proof.
    intros Hd Hx Hj F. destruct (probabilities_ok m HT HN HN' np_sum Hsum drawn Hd) as (A & B & C & D & E).
    set (p := probabilities m np_sum drawn) in *. set (P j := draw_probability T cov N drawn j) in *.
    assert (Pp : Forall (Rlt 0) p) by (eapply Forall_impl; [|exact B]; cbn; intros a Ha; pose proof (bpow_gt_0 radix2 (-62)); lra).
    assert (Hne : p <> []) by (intros Ep; rewrite Ep in C; cbn in C; lia).
    assert (HL : INR (length p) <= 4194304) by (rewrite C; rewrite INR_IZR_INZ; apply IZR_le; lia).
    pose proof (searchsorted_range p x Hne A Pp (proj2 Hx)) as Hr. rewrite Hj in Hr.
    assert (F2 : Forall2 (rel (/ 2 ^ 20)) p (map (fun j => Q2R (P j)) (seq 0 N))).
    { assert (G : forall l f, (forall i q, nth_error l i = Some q -> rel (/ 2 ^ 20) q (f i)) -> Forall2 (rel (/ 2 ^ 20)) l (map f (seq 0 (length l)))).
      { clear. induction l as [|y l IH]; intros f H; cbn; constructor; [apply (H 0%nat); reflexivity|].
        rewrite <- seq_shift, map_map. apply IH. intros i q Hq. apply (H (S i)). exact Hq. }
      unfold N. rewrite <- C. apply G. exact E. }
    assert (E20 : / 2 ^ 20 = / 1048576) by (rewrite (pow_IZR 2 20); reflexivity).
    assert (E19 : / 2 ^ 19 = / 524288) by (rewrite (pow_IZR 2 19); reflexivity). rewrite E19. rewrite E20 in F2.
    assert (pre : forall k c, (k < length p)%nat -> nth_error (cdf p) k = Some c -> rel (/ 524288) c (F (S k))).
    { intros k c Hk Hc. pose proof (cdf_rel p k c A B HL D Hc) as R1.
      assert (R2 : rel (/ 1048576) (rsum (firstn (S k) p)) (F (S k))).
      { assert (F (S k) = rsum (firstn (S k) (map (fun j => Q2R (P j)) (seq 0 N)))) as ->.
        { unfold F. rewrite Q2R_qsum, map_map, firstn_map, firstn_seq by (rewrite C in Hk; unfold N in *; lia). reflexivity. }
        apply rel_sum; [destruct p; [congruence|discriminate]|]. now apply Forall2_firstn. }
      eapply rel_weaken; [|eapply rel_trans; [| |exact R1|exact R2]]; lra. }
    pose proof (cdf_sorted p A Pp) as HS.
    split.
    - destruct j as [|j]; [unfold F; cbn; unfold Q2R; cbn; lra|].
      destruct (nth_error (cdf p) j) as [c|] eqn:Ec; [|apply nth_error_None in Ec; rewrite cdf_length in Ec; lia].
      assert (c <= x) by (apply (searchsorted_spec (cdf p) x HS j c Ec); lia).
      destruct (pre j c ltac:(lia) Ec) as (_ & L & _). lra.
    - destruct (nth_error (cdf p) j) as [c|] eqn:Ec; [|apply nth_error_None in Ec; rewrite cdf_length in Ec; lia].
      assert (x < c).
      { destruct (Rle_dec c x) as [G|]; [|lra]. apply (searchsorted_spec (cdf p) x HS j c Ec) in G. lia. }
      destruct (pre j c ltac:(lia) Ec) as (_ & _ & G). lra.
  Qed.
End Accuracy.

(** ** More draws, less uniqueness *)
Lemma seq_sum_le a b : Forall2 Rle a b -> seq_sum a <= seq_sum b.
Proof.
  unfold seq_sum. assert (forall a b, Forall2 Rle a b -> forall s t, s <= t ->
    fold_left (fun s x => to_double (s + x)) a s <= fold_left (fun s x => to_double (s + x)) b t) as H.
  { clear. induction 1 as [|x y a b' Hx H IH]; intros s t Hs; cbn [fold_left]; auto. apply IH. apply to_double_le. lra. }
  intros HF. apply H; auto. lra.
Qed.
Lemma mean_le a b v w : Forall2 Rle a b -> mean_double a = Some v -> mean_double b = Some w -> v <= w.
Proof.
  intros HF Hv Hw. pose proof (seq_sum_le a b HF) as HS.
  assert (HL : length a = length b) by (clear - HF; induction HF; cbn; auto).
  assert (G : forall l z, mean_double l = Some z -> z = to_double (seq_sum l / INR (length l)) /\ (0 < length l)%nat).
  { clear. intros [|x l] z Hz; [discriminate|]. unfold mean_double in Hz. injection Hz as <-. split; [reflexivity|cbn; lia]. }
  destruct (G _ _ Hv) as [-> P1]. destruct (G _ _ Hw) as [-> _].
  apply to_double_le. rewrite <- HL. unfold Rdiv. apply Rmult_le_compat_r; auto. left. apply Rinv_0_lt_compat. now apply lt_0_INR.
Qed.
Lemma inverse_single_le k k' : (1 <= k <= k')%nat -> inverse_single k' <= inverse_single k.
Proof.
  intros H. unfold inverse_single. apply to_single_le.
  assert (1 <= INR k <= INR k') as [A B] by (split; [change 1 with (INR 1)|]; apply le_INR; lia).
  assert (1 <= to_single (INR k)) as C by (rewrite <- to_single_1; now apply to_single_le).
  apply to_single_le in B. unfold Rdiv. rewrite !Rmult_1_l. apply Rinv_le_contravar; lra.
Qed.

Lemma update_decreases m js drawn extra i j : (Z.of_nat (nrows m) <= 2 ^ 26)%Z -> (Z.of_nat (length (drawn ++ extra)) <= 2 ^ 38)%Z ->
  nth_error js i = Some j -> rows_of (nrows m) (entry m) j <> [] ->
  exists v v', nth_error (calc_update_avg_unique_double m js drawn) i = Some (Some v) /\
    nth_error (calc_update_avg_unique_double m js (drawn ++ extra)) i = Some (Some v') /\
    0 < v' <= v /\ v <= 1 /\ within_rel (/ 2 ^ 22) v (Q2R (uniqueness_after (nrows m) (entry m) drawn j)).
Proof.
  intros HT Hd Hi Hne. rewrite !calc_update_map_d, !nth_error_map, Hi. cbn [option_map].
  rewrite !(upd_value_d m) by auto. rewrite app_length in Hd.
  exists (computed m drawn j), (computed m (drawn ++ extra) j). split; [reflexivity|split; [reflexivity|]].
  destruct (computed_bounds m HT drawn j ltac:(lia)) as (_ & _ & U).
  destruct (computed_bounds m HT (drawn ++ extra) j ltac:(rewrite app_length; lia)) as (_ & L & _).
  pose proof (bpow_gt_0 radix2 (-39)). split; [split; [lra|]|split; [lra|]].
  - unfold computed. destruct (mean_double (map _ _)) as [v'|] eqn:E'; [|destruct (rows_of (nrows m) (entry m) j); [congruence|discriminate]].
    destruct (mean_double (map (fun t => inverse_single (1 + count (entry m t) drawn)) _)) as [v|] eqn:E; [|destruct (rows_of (nrows m) (entry m) j); [congruence|discriminate]].
    eapply mean_le; [|exact E'|exact E]. clear. induction (rows_of (nrows m) (entry m) j) as [|t l IH]; cbn [map]; constructor; auto.
    apply inverse_single_le. rewrite count_app. lia.
  - rewrite <- exact_spec. apply rel_within. assert (/ 2 ^ 22 = / 4194304) as -> by (rewrite (pow_IZR 2 22); reflexivity).
    apply computed_rel; auto. lia.
Qed.

(** ** The average uniqueness against the exact one *)
Lemma Q2R_inv_Qn n : (0 < n)%nat -> Q2R (/ Qn n) = / INR n.
Proof.
  intros H. rewrite Q2R_inv, Q2R_Qn; [reflexivity|]. intros E. apply Qeq_eqR in E. rewrite Q2R_Qn in E.
  assert (INR n = 0) as E' by (rewrite E; unfold Q2R; cbn; lra). apply (not_0_INR n); [lia|exact E'].
Qed.
Lemma average_uniqueness_double_rel m j u : (Z.of_nat (nrows m) <= 2 ^ 26)%Z -> (Z.of_nat (ncols m) <= 2 ^ 52)%Z -> (j < ncols m)%nat ->
  nth_error (calc_average_uniqueness_double m) j = Some (Some u) ->
  within_rel (/ 2 ^ 25) u (Q2R (mean_inverse_concurrency (nrows m) (entry m) (ncols m) j)).
Proof.
  intros HT HN Hj Hu. assert (/ 2 ^ 25 = / 33554432) as -> by (rewrite (pow_IZR 2 25); reflexivity). apply rel_within.
  unfold calc_average_uniqueness_double, all_cols in Hu. rewrite nth_error_map in Hu.
  assert (nth_error (seq 0 (ncols m)) j = Some j) as Ej.
  { rewrite (nth_error_nth' _ 0%nat) by (rewrite seq_length; lia). now rewrite seq_nth. }
  rewrite Ej in Hu. cbn [option_map] in Hu. injection Hu as Hu.
  change (filter (fun t => entry m t j) (all_rows m)) with (rows_of (nrows m) (entry m) j) in Hu.
  pose proof (rows_INR m HT j) as Hn. pose proof (rows_le m HT j) as Hn'.
  assert (Hk : forall t, In t (rows_of (nrows m) (entry m) j) -> (1 <= conc_count m t)%nat /\ (Z.of_nat (conc_count m t) <= 2 ^ 53)%Z).
  { intros t Ht. apply rows_of_In in Ht. destruct Ht as [_ Ht]. split.
    - unfold conc_count. assert (In j (filter (entry m t) (all_cols m))) as Hin by (apply filter_In; split; auto; apply in_seq; lia).
      destruct (filter (entry m t) (all_cols m)); [destruct Hin|cbn; lia].
    - unfold conc_count, all_cols. pose proof (filter_length_le (entry m t) (seq 0 (ncols m))) as Le. rewrite seq_length in Le. lia. }
  unfold mean_inverse_concurrency.
  set (rows := rows_of (nrows m) (entry m) j) in *. clearbody rows.
  assert (Hne : rows <> []) by (destruct rows; [discriminate|discriminate]).
  set (vs := map (fun t => to_double (1 / INR (conc_count m t))) rows) in *.
  set (es := map (fun t => / INR (conc_count m t)) rows).
  assert (Lv : length vs = length rows) by apply map_length.
  assert (Hvs : vs <> []) by (unfold vs; destruct rows; [congruence|discriminate]).
  pose proof eps64_pos as HE.
  assert (Bv : Forall (fun x => bpow radix2 (-53) <= x <= 1) vs).
  { unfold vs. rewrite Forall_map. apply Forall_forall. intros t Ht. destruct (Hk t Ht). now apply inverse_double_bounds. }
  assert (F2 : rel eps64 (rsum vs) (rsum es)).
  { apply rel_sum; auto. unfold vs, es. clear - Hk. induction rows as [|t l IH]; cbn [map]; constructor; [|apply IH; intros; apply Hk; now right].
    destruct (Hk t ltac:(now left)) as [K1 K2]. assert (1 <= INR (conc_count m t)) as A by (change 1 with (INR 1); now apply le_INR).
    assert (INR (conc_count m t) <= 9007199254740992) as B by (rewrite INR_IZR_INZ; apply IZR_le; lia).
    replace (/ INR (conc_count m t)) with (1 / INR (conc_count m t)) by (unfold Rdiv; lra).
    apply double_rel. apply Rle_trans with (bpow radix2 (-53)); [apply bpow_le; lia|].
    change (bpow radix2 (-53)) with (/ 9007199254740992). unfold Rdiv. rewrite Rmult_1_l. apply Rinv_le_contravar; lra. }
  assert (Dv : Forall is_double vs) by (unfold vs; rewrite Forall_map; apply Forall_forall; intros; apply to_double_is).
  assert (Nv : Forall (Rle 0) vs).
  { eapply Forall_impl; [|exact Bv]. cbn. intros a [Ha _]. pose proof (bpow_gt_0 radix2 (-53)). lra. }
  assert (Pv : 0 < rsum vs) by (eapply rel_pos; [|exact F2]; unfold eps64; lra).
  assert (Pn : 1 <= INR (length rows)) by (change 1 with (INR 1); apply le_INR; destruct rows; [congruence|cbn; lia]).
  assert (Hs : INR (length vs) * eps64 <= / 134217728).
  { rewrite Lv. apply Rle_trans with (67108864 * eps64); [apply Rmult_le_compat_r; lra|]. unfold eps64. lra. }
  destruct (added_rel vs (seq_sum vs) (seq_sum_added vs Hvs Dv) Dv Nv Pv ltac:(lra)) as (_ & R1).
  apply (rel_weaken _ (/ 67108864)) in R1; [|lra].
  assert (R2 : rel (/ 60000000) (seq_sum vs) (rsum es)).
  { eapply rel_weaken; [|eapply rel_trans; [| |exact R1|exact F2]]; unfold eps64; lra. }
  pose proof (fun H1 H2 => rel_div _ 0 _ _ (INR (length rows)) (INR (length rows)) H1 H2 R2 (rel_refl (INR (length rows)) ltac:(lra))) as R3.
  specialize (R3 ltac:(lra) ltac:(lra)).
  assert (u = to_double (seq_sum vs / INR (length rows))) as ->.
  { rewrite <- Lv. destruct vs; [congruence|]. now injection Hu. }
  assert (B : bpow radix2 (-53) <= seq_sum vs / INR (length rows)).
  { destruct (seq_sum_bounds (-53) vs ltac:(lia) ltac:(rewrite Lv; lia) Bv) as [Lo _]. rewrite Lv in Lo.
    apply Rmult_le_reg_r with (INR (length rows)); [lra|]. unfold Rdiv. rewrite Rmult_assoc, Rinv_l by lra. lra. }
  assert (R4 : rel eps64 (to_double (seq_sum vs / INR (length rows))) (seq_sum vs / INR (length rows))).
  { apply double_rel. eapply Rle_trans; [|exact B]. apply bpow_le. lia. }
  assert (EQ : Q2R (qmean (map (fun t => / Qn (count (entry m t) (seq 0 (ncols m))))%Q rows)) = rsum es / INR (length rows)).
  { unfold qmean. rewrite map_length. rewrite Q2R_div, Q2R_qsum, Q2R_Qn, map_map.
    - unfold es. f_equal. f_equal. apply map_ext_in. intros t Ht. destruct (Hk t Ht). now apply Q2R_inv_Qn.
    - intros E. apply Qeq_eqR in E. rewrite Q2R_Qn in E. unfold Q2R in E. cbn in E. lra. }
  rewrite EQ. eapply rel_weaken; [|eapply rel_trans; [| |exact R4|exact R3]]; unfold eps64; lra.
Qed.
