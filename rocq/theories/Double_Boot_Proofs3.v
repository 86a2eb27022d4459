(** Uniqueness and draw probabilities in floating point: bounds and accuracy. *)
From Coq Require Import Reals ZArith QArith Qreals Lia Lra List Permutation Psatz.
From Flocq Require Import Core.
From Flocq.Prop Require Import Relative.
From Verif Require Import Prelude PreludeFacts QSum QSumFacts Boot_Spec Boot_Model Boot_Proofs Boot_Proofs2 Double_Model Double_Spec Double_Proofs Double_Proofs2
  Double_Boot_Model Double_Boot_Proofs Double_Boot_Proofs2.
Import ListNotations.
Local Open Scope R_scope.

(** ** Single precision *)
#[local] Instance prec24 : Prec_gt_0 24 := eq_refl.
#[local] Instance prec53' : Prec_gt_0 53 := eq_refl.
#[local] Instance valid_single : Valid_exp single_format.
Proof. apply FLT_exp_valid. typeclasses eauto. Qed.
#[local] Instance valid_double' : Valid_exp double_format.
Proof. apply FLT_exp_valid. typeclasses eauto. Qed.
Lemma to_single_le x y : x <= y -> to_single x <= to_single y.
Proof. intros. apply round_le; auto; typeclasses eauto. Qed.
Lemma to_single_bpow e : (-149 <= e)%Z -> to_single (bpow radix2 e) = bpow radix2 e.
Proof.
  intros He. apply round_generic; [typeclasses eauto|]. apply generic_format_bpow.
  unfold single_format, FLT_exp. lia.
Qed.
Lemma to_single_1 : to_single 1 = 1.
Proof. change 1 with (bpow radix2 0) at 1 2. now apply to_single_bpow. Qed.
Lemma to_single_is_double x : is_double (to_single x).
Proof.
  apply is_double_format. apply (generic_inclusion_mag radix2 single_format double_format); [|apply generic_format_round; typeclasses eauto].
  intros _. unfold single_format, double_format, FLT_exp. lia.
Qed.
Lemma single_rel x : bpow radix2 (-126) <= x -> rel (/ 16777216) (to_single x) x.
Proof.
  intros H. assert (0 < x) as P by (pose proof (bpow_gt_0 radix2 (-126)); lra).
  assert (E : Rabs (to_single x - x) <= / 2 * bpow radix2 (-24 + 1) * Rabs x).
  { apply relative_error_N_FLT; [reflexivity|]. rewrite Rabs_pos_eq by lra. exact H. }
  rewrite (Rabs_pos_eq x) in E by lra. apply Rabs_le_inv in E. replace (/ 2 * bpow radix2 (-24 + 1)) with (/ 16777216) in E by (change (bpow radix2 (-24 + 1)) with (/ 8388608); lra).
  split; auto. lra.
Qed.
Lemma double_rel x : bpow radix2 (-1022) <= x -> rel eps64 (to_double x) x.
Proof.
  intros H. assert (0 < x) as P by (pose proof (bpow_gt_0 radix2 (-1022)); lra).
  assert (E : Rabs (to_double x - x) <= / 2 * bpow radix2 (-53 + 1) * Rabs x).
  { apply relative_error_N_FLT; [reflexivity|]. rewrite Rabs_pos_eq by lra. exact H. }
  rewrite (Rabs_pos_eq x) in E by lra. apply Rabs_le_inv in E. rewrite eps64_bpow. change (- (53) + 1)%Z with (-53 + 1)%Z. 
  split; auto. lra.
Qed.

(** ** Sums of numbers between a power of two and one *)
Lemma seq_sum_added l : l <> [] -> Forall is_double l -> added l (seq_sum l).
Proof.
  intros Hne D. destruct l as [|x r]; [congruence|]. unfold seq_sum. cbn [fold_left].
  inversion D as [|? ? Dx Dr]; subst. rewrite Rplus_0_l, (to_double_id x Dx).
  assert (forall r pre s, added pre s -> added (pre ++ r) (fold_left (fun s x => to_double (s + x)) r s)) as H.
  { clear. induction r as [|y r IH]; intros pre s HA; cbn [fold_left]; [now rewrite app_nil_r|].
    replace (pre ++ y :: r) with ((pre ++ [y]) ++ r) by (rewrite <- app_assoc; reflexivity). apply IH.
    eapply added_two; [reflexivity|exact HA|apply added_one|apply to_double_nearest]. }
  apply (H r [x] x). apply added_one.
Qed.
Lemma is_double_scaled k e : (Z.of_nat k <= 2 ^ 52)%Z -> (-1074 <= e)%Z -> is_double (INR k * bpow radix2 e).
Proof. intros Hk He. exists (Z.of_nat k), e. rewrite <- bpow2, <- INR_IZR_INZ. split; auto. split; lia. Qed.
Lemma seq_sum_bounds e l : (-1074 <= e <= 0)%Z -> (Z.of_nat (length l) <= 2 ^ 52)%Z -> Forall (fun x => bpow radix2 e <= x <= 1) l ->
  INR (length l) * bpow radix2 e <= seq_sum l <= INR (length l).
Proof.
  intros He Hl HF. unfold seq_sum.
  assert (forall l k s, (Z.of_nat (k + length l) <= 2 ^ 52)%Z -> Forall (fun x => bpow radix2 e <= x <= 1) l -> INR k * bpow radix2 e <= s <= INR k ->
    INR (k + length l) * bpow radix2 e <= fold_left (fun s x => to_double (s + x)) l s <= INR (k + length l)) as H.
  { clear l Hl HF. induction l as [|x l IH]; intros k s Hl HF Hs; cbn [fold_left length]; [now rewrite Nat.add_0_r|].
    inversion HF as [|? ? Hx HF']; subst. cbn [length] in Hl. rewrite Nat.add_succ_r in *. change (S (k + length l)) with (S k + length l)%nat in *.
    apply IH; auto. rewrite S_INR. split.
    - apply to_double_ge_double; [|lra]. rewrite <- S_INR. apply is_double_scaled; lia.
    - apply to_double_le_double; [|lra]. rewrite <- S_INR, <- (Rmult_1_r (INR (S k))). change 1 with (bpow radix2 0). apply is_double_scaled; lia. }
  apply (H l 0%nat 0); auto. cbn. lra.
Qed.
Lemma mean_bounds e l v : (-1074 <= e <= 0)%Z -> (Z.of_nat (length l) <= 2 ^ 52)%Z -> Forall (fun x => bpow radix2 e <= x <= 1) l ->
  mean_double l = Some v -> is_double v /\ bpow radix2 e <= v <= 1.
Proof.
  intros He Hl HF Hv. destruct l as [|x r]; [discriminate|]. injection Hv as <-. split; [apply to_double_is|].
  destruct (seq_sum_bounds e _ He Hl HF) as [L U]. assert (0 < INR (length (x :: r))) as P by (apply lt_0_INR; cbn; lia).
  split.
  - apply to_double_ge_double.
    + rewrite <- (Rmult_1_l (bpow radix2 e)). change 1 with (INR 1). apply is_double_scaled; lia.
    + apply Rmult_le_reg_r with (INR (length (x :: r))); auto. unfold Rdiv. rewrite Rmult_assoc, Rinv_l by lra. lra.
  - apply to_double_le_double; [apply is_double_1|].
    apply Rmult_le_reg_r with (INR (length (x :: r))); auto. unfold Rdiv. rewrite Rmult_assoc, Rinv_l by lra. lra.
Qed.
Lemma mean_ones n : (0 < n)%nat -> (Z.of_nat n <= 2 ^ 52)%Z -> mean_double (repeat 1 n) = Some 1.
Proof.
  intros Hn Hl. destruct (mean_double (repeat 1 n)) as [v|] eqn:E; [|destruct n; [lia|discriminate]].
  destruct (mean_bounds 0 (repeat 1 n) v) as (_ & H); auto.
  - lia.
  - now rewrite repeat_length.
  - apply Forall_forall. intros x Hx. apply repeat_spec in Hx. subst. cbn. lra.
  - change (bpow radix2 0) with 1 in H. f_equal. lra.
Qed.

(** ** Average uniqueness *)
Lemma filter_length_le {A} (f : A -> bool) l : (length (filter f l) <= length l)%nat.
Proof. induction l as [|x l IH]; cbn; auto. destruct (f x); cbn; lia. Qed.
Lemma inverse_double_bounds k : (1 <= k)%nat -> (Z.of_nat k <= 2 ^ 53)%Z -> bpow radix2 (-53) <= to_double (1 / INR k) <= 1.
Proof.
  intros H1 H2. assert (1 <= INR k) as A by (change 1 with (INR 1); now apply le_INR).
  assert (INR k <= 9007199254740992) as B by (rewrite INR_IZR_INZ; apply IZR_le; lia).
  assert (/ 9007199254740992 <= 1 / INR k <= 1) as C.
  { split; apply Rmult_le_reg_r with (INR k); try lra; unfold Rdiv; rewrite ?Rmult_assoc, ?Rinv_l by lra; lra. }
  split; [|apply to_double_le_double; [apply is_double_1|lra]].
  apply to_double_ge_double; [|change (bpow radix2 (-53)) with (/ 9007199254740992); lra].
  rewrite <- (Rmult_1_l (bpow radix2 (-53))). change 1 with (INR 1). apply is_double_scaled; lia.
Qed.
Lemma average_uniqueness_double_bounds m j : (Z.of_nat (nrows m) <= 2 ^ 52)%Z -> (Z.of_nat (ncols m) <= 2 ^ 52)%Z -> (j < ncols m)%nat ->
  rows_of (nrows m) (entry m) j <> [] ->
  exists u, nth_error (calc_average_uniqueness_double m) j = Some (Some u) /\ is_double u /\ bpow radix2 (-53) <= u <= 1.
Proof.
  intros HT HN Hj Hne. unfold calc_average_uniqueness_double, all_cols. rewrite nth_error_map.
  assert (nth_error (seq 0 (ncols m)) j = Some j) as ->.
  { rewrite (nth_error_nth' _ 0%nat) by (rewrite seq_length; lia). now rewrite seq_nth. }
  cbn [option_map]. change (filter (fun t => entry m t j) (all_rows m)) with (rows_of (nrows m) (entry m) j).
  destruct (mean_double _) as [v|] eqn:E.
  - exists v. split; auto. match type of E with mean_double ?l = _ => set (L := l) in E end.
    apply (mean_bounds (-53) L v); auto; unfold L.
    + lia.
    + rewrite map_length. unfold rows_of. pose proof (filter_length_le (fun t => entry m t j) (seq 0 (nrows m))) as Le. rewrite seq_length in Le. lia.
    + rewrite Forall_map. apply Forall_forall. intros t Ht. apply filter_In in Ht. destruct Ht as [_ Ht].
      apply inverse_double_bounds.
      * unfold conc_count. assert (In j (filter (entry m t) (all_cols m))) as Hin by (apply filter_In; split; auto; apply in_seq; lia).
        destruct (filter (entry m t) (all_cols m)); [destruct Hin|cbn; lia].
      * unfold conc_count, all_cols. pose proof (filter_length_le (entry m t) (seq 0 (ncols m))) as Le. rewrite seq_length in Le. lia.
  - destruct (rows_of _ _ j); [congruence|discriminate].
Qed.

(** ** Uniqueness given the draws so far *)
Section Unique.
  Variable m : mat.
  Let T := nrows m.
  Let N := ncols m.
  Let cov := entry m.
  Hypothesis HT : (Z.of_nat (nrows m) <= 2 ^ 26)%Z.

  (* what the update computes, as a function of the draws alone *)
  Definition inverse_single (k : nat) : R := to_single (1 / to_single (INR k)).
  Definition computed (drawn : list nat) (j : nat) : R :=
    match mean_double (map (fun t => inverse_single (1 + count (cov t) drawn)) (rows_of T cov j)) with Some v => v | None => 1 end.
  Definition exact (drawn : list nat) (j : nat) : R :=
    match rows_of T cov j with
    | [] => 1
    | rows => rsum (map (fun t => / INR (1 + count (cov t) drawn)) rows) / INR (length rows)
    end.

  Lemma count_le {A} (p : A -> bool) l : (count p l <= length l)%nat.
  Proof. apply filter_length_le. Qed.
  Lemma rows_le j : (Z.of_nat (length (rows_of T cov j)) <= 2 ^ 26)%Z.
  Proof. unfold rows_of. pose proof (filter_length_le (fun t => cov t j) (seq 0 T)) as H. rewrite seq_length in H. unfold T in *. lia. Qed.
  Lemma rows_INR j : INR (length (rows_of T cov j)) <= 67108864.
  Proof. rewrite INR_IZR_INZ. apply IZR_le. apply (rows_le j). Qed.

  Lemma INR_bounds k : (1 <= k)%nat -> (Z.of_nat k <= 2 ^ 39)%Z -> 1 <= INR k <= 549755813888.
  Proof.
    intros H1 H2. split; [change 1 with (INR 1); now apply le_INR|]. rewrite INR_IZR_INZ. apply IZR_le. lia.
  Qed.
  Lemma inverse_single_bounds k : (1 <= k)%nat -> (Z.of_nat k <= 2 ^ 39)%Z -> bpow radix2 (-39) <= inverse_single k <= 1.
  Proof.
    intros H1 H2. destruct (INR_bounds k H1 H2) as [A B]. unfold inverse_single.
    assert (1 <= to_single (INR k) <= 549755813888) as [C D].
    { split; [rewrite <- to_single_1; now apply to_single_le|]. change 549755813888 with (bpow radix2 39) in *.
      rewrite <- (to_single_bpow 39) by lia. now apply to_single_le. }
    assert (bpow radix2 (-39) <= 1 / to_single (INR k) <= 1) as [E F].
    { change (bpow radix2 (-39)) with (/ 549755813888).
      split; apply Rmult_le_reg_r with (to_single (INR k)); try lra; unfold Rdiv; rewrite ?Rmult_assoc, ?Rinv_l by lra; lra. }
    split; [rewrite <- (to_single_bpow (-39)) by lia; now apply to_single_le|].
    apply Rle_trans with (to_single 1); [now apply to_single_le|rewrite to_single_1; lra].
  Qed.
  Lemma inverse_single_rel k : (1 <= k)%nat -> (Z.of_nat k <= 2 ^ 39)%Z -> rel (/ 5000000) (inverse_single k) (/ INR k).
  Proof.
    intros H1 H2. destruct (INR_bounds k H1 H2) as [A B].
    assert (small : bpow radix2 (-126) <= bpow radix2 (-40)) by (apply bpow_le; lia).
    change (bpow radix2 (-40)) with (/ 1099511627776) in small.
    assert (R1 : rel (/ 16777216) (to_single (INR k)) (INR k)) by (apply single_rel; lra).
    pose proof (rel_div 0 (/ 16777216) 1 1 (to_single (INR k)) (INR k) ltac:(lra) ltac:(lra) (rel_refl 1 ltac:(lra)) R1) as R2.
    assert (P : / 549755813888 <= / INR k) by (apply Rinv_le_contravar; lra).
    assert (R3 : rel (/ 16777216) (inverse_single k) (1 / to_single (INR k))).
    { apply single_rel. destruct R2 as (_ & L & _). replace (1 / INR k) with (/ INR k) in L by (unfold Rdiv; lra).
      set (q := / INR k) in *. assert (q * (1 - (0 + / 16777216 + 2 * / 16777216 * (0 + / 16777216))) >= q * (9 / 10)) by (apply Rmult_ge_compat_l; lra). lra. }
    replace (/ INR k) with (1 / INR k) by (unfold Rdiv; lra).
    eapply rel_weaken; [|eapply rel_trans; [| |exact R3|exact R2]]; lra.
  Qed.

  Lemma computed_bounds drawn j : (Z.of_nat (length drawn) <= 2 ^ 38)%Z ->
    is_double (computed drawn j) /\ bpow radix2 (-39) <= computed drawn j <= 1.
  Proof.
    intros Hd. unfold computed. destruct (mean_double _) as [v|] eqn:E.
    - eapply mean_bounds; [| | |exact E].
      + lia.
      + rewrite map_length. pose proof (rows_le j). lia.
      + rewrite Forall_map. apply Forall_forall. intros t _. apply inverse_single_bounds; [lia|].
        pose proof (count_le (cov t) drawn). lia.
    - split; [apply is_double_1|]. change (bpow radix2 (-39)) with (/ 549755813888). lra.
  Qed.
  Lemma computed_rel drawn j : (Z.of_nat (length drawn) <= 2 ^ 38)%Z -> rel (/ 4194304) (computed drawn j) (exact drawn j).
  Proof.
    intros Hd. unfold computed, exact. pose proof (rows_INR j) as Hn. pose proof (rows_le j) as Hn'.
    destruct (rows_of T cov j) as [|t0 r] eqn:E.
    { cbn. apply rel_weaken with 0; [lra|apply rel_refl; lra]. }
    set (rows := t0 :: r) in *. assert (Hne : rows <> []) by discriminate. clearbody rows. clear E t0 r.
    set (vs := map (fun t => inverse_single (1 + count (cov t) drawn)) rows).
    set (es := map (fun t => / INR (1 + count (cov t) drawn)) rows).
    assert (Hk : forall t, (1 <= 1 + count (cov t) drawn)%nat /\ (Z.of_nat (1 + count (cov t) drawn) <= 2 ^ 39)%Z).
    { intros t. pose proof (count_le (cov t) drawn). lia. }
    assert (Lv : length vs = length rows) by apply map_length.
    assert (Hvs : vs <> []) by (unfold vs; destruct rows; [congruence|discriminate]).
    assert (F2 : rel (/ 5000000) (rsum vs) (rsum es)).
    { apply rel_sum; auto. unfold vs, es. generalize rows. intros l. induction l as [|t l IH]; cbn [map]; constructor; auto.
      apply inverse_single_rel; apply Hk. }
    assert (Dv : Forall is_double vs) by (unfold vs; rewrite Forall_map; apply Forall_forall; intros; apply to_single_is_double).
    assert (Bv : Forall (fun x => bpow radix2 (-39) <= x <= 1) vs).
    { unfold vs. rewrite Forall_map. apply Forall_forall. intros t _. apply inverse_single_bounds; apply Hk. }
    assert (Nv : Forall (Rle 0) vs).
    { eapply Forall_impl; [|exact Bv]. cbn. intros a [Ha _]. pose proof (bpow_gt_0 radix2 (-39)). lra. }
    assert (Pv : 0 < rsum vs) by (eapply rel_pos; [|exact F2]; lra). pose proof eps64_pos as HE.
    assert (Pn : 1 <= INR (length rows)) by (change 1 with (INR 1); apply le_INR; destruct rows; [congruence|cbn; lia]).
    assert (Hs : INR (length vs) * eps64 <= / 134217728).
    { rewrite Lv. apply Rle_trans with (67108864 * eps64); [apply Rmult_le_compat_r; lra|]. unfold eps64. lra. }
    destruct (added_rel vs (seq_sum vs) (seq_sum_added vs Hvs Dv) Dv Nv Pv ltac:(lra)) as (_ & R1).
    apply (rel_weaken _ (/ 67108864)) in R1; [|lra].
    pose proof (rel_trans (/ 67108864) (/ 5000000) _ _ _ ltac:(lra) ltac:(lra) R1 F2) as R2.
    pose proof (fun H1 H2 => rel_div _ 0 _ _ (INR (length rows)) (INR (length rows)) H1 H2 R2 (rel_refl (INR (length rows)) ltac:(lra))) as R3.
    specialize (R3 ltac:(lra) ltac:(lra)).
    assert (mean_double vs = Some (to_double (seq_sum vs / INR (length rows)))) as ->.
    { rewrite <- Lv. destruct vs; [congruence|reflexivity]. }
    assert (B : bpow radix2 (-39) <= seq_sum vs / INR (length rows)).
    { destruct (seq_sum_bounds (-39) vs ltac:(lia) ltac:(rewrite Lv; lia) Bv) as [Lo _]. rewrite Lv in Lo.
      apply Rmult_le_reg_r with (INR (length rows)); [lra|]. unfold Rdiv. rewrite Rmult_assoc, Rinv_l by lra. lra. }
    assert (R4 : rel eps64 (to_double (seq_sum vs / INR (length rows))) (seq_sum vs / INR (length rows))).
    { apply double_rel. eapply Rle_trans; [|exact B]. apply bpow_le. lia. }
    eapply rel_weaken; [|eapply rel_trans; [| |exact R4|exact R3]]; unfold eps64; lra.
  Qed.

  (** ** Probabilities *)
  Lemma probability np_sum drawn : (0 < N)%nat -> (Z.of_nat N <= 2 ^ 22)%Z -> (Z.of_nat (length drawn) <= 2 ^ 38)%Z ->
    let us := map (computed drawn) (seq 0 N) in
    added us (np_sum us) ->
    let p := map (fun q => to_double (q / np_sum us)) us in
    Forall is_double p /\ Forall (Rle (bpow radix2 (-62))) p /\ length p = N /\ rel (/ 2 ^ 28) (rsum p) 1 /\
    forall j q, nth_error p j = Some q -> rel (/ 2 ^ 20) q (exact drawn j / rsum (map (exact drawn) (seq 0 N))).
  Proof.
    intros HN HN' Hd us HA p.
    assert (Lu : length us = N) by (unfold us; now rewrite map_length, seq_length).
    assert (Hus : us <> []) by (destruct us; [cbn in Lu; lia|discriminate]).
    assert (LN : INR N <= 4194304) by (rewrite INR_IZR_INZ; apply IZR_le; lia).
    assert (Bu : Forall (fun x => is_double x /\ bpow radix2 (-39) <= x <= 1) us).
    { unfold us. rewrite Forall_map. apply Forall_forall. intros j _. now apply computed_bounds. }
    assert (Du : Forall is_double us) by (eapply Forall_impl; [|exact Bu]; cbn; tauto).
    assert (Nu : Forall (Rle 0) us).
    { eapply Forall_impl; [|exact Bu]. cbn. intros a [_ [Ha _]]. pose proof (bpow_gt_0 radix2 (-39)). lra. }
    assert (F2 : rel (/ 4194304) (rsum us) (rsum (map (exact drawn) (seq 0 N)))).
    { apply rel_sum; auto. unfold us. generalize (seq 0 N). intros l. induction l as [|t l IH]; cbn [map]; constructor; auto. now apply computed_rel. }
    assert (Pu : 0 < rsum us) by (eapply rel_pos; [|exact F2]; lra). pose proof eps64_pos as HE.
    assert (Hs : INR (length us) * eps64 <= / 2147483648).
    { rewrite Lu. apply Rle_trans with (4194304 * eps64); [apply Rmult_le_compat_r; lra|]. unfold eps64. lra. }
    destruct (added_rel us (np_sum us) HA Du Nu Pu ltac:(lra)) as (_ & R1).
    apply (rel_weaken _ (/ 1073741824)) in R1; [|lra].
    set (S := np_sum us) in *.
    assert (PS : 0 < S) by (eapply rel_pos; [|exact R1]; lra).
    assert (US : S <= 8388608).
    { destruct R1 as (_ & _ & U). assert (rsum us <= 4194304).
      { apply Rle_trans with (INR (length us)); [|now rewrite Lu]. clear - Bu. induction us as [|x l IH]; [cbn; lra|].
        inversion Bu as [|? ? [_ Hx] Bl]; subst. cbn [rsum length]. rewrite S_INR. specialize (IH Bl). lra. }
      lra. }
    assert (Lp : forall x, In x us -> bpow radix2 (-62) <= x / S).
    { intros x Hx. rewrite Forall_forall in Bu. destruct (Bu x Hx) as (_ & Lx & _).
      apply Rmult_le_reg_r with S; auto. unfold Rdiv. rewrite Rmult_assoc, Rinv_l by lra.
      change (bpow radix2 (-62)) with (/ 4611686018427387904). change (bpow radix2 (-39)) with (/ 549755813888) in Lx. lra. }
    assert (Rp : forall x, In x us -> rel eps64 (to_double (x / S)) (x / S)).
    { intros x Hx. apply double_rel. apply Rle_trans with (bpow radix2 (-62)); [apply bpow_le; lia|auto]. }
    split; [unfold p; rewrite Forall_map; apply Forall_forall; intros; apply to_double_is|].
    split.
    { unfold p. rewrite Forall_map. apply Forall_forall. intros x Hx. apply to_double_ge_double; auto.
      rewrite <- (Rmult_1_l (bpow radix2 (-62))). change 1 with (INR 1). apply is_double_scaled; lia. }
    split; [unfold p; now rewrite map_length|]. split.
    - assert (E28 : / 2 ^ 28 = / 268435456) by (rewrite (pow_IZR 2 28); reflexivity). rewrite E28.
      assert (A : rel eps64 (rsum p) (rsum (map (fun x => x / S) us))).
      { apply rel_sum; [unfold p; destruct us; [congruence|discriminate]|]. unfold p. clear - Rp. clearbody S us. induction us as [|x l IH]; cbn [map]; constructor.
        - apply Rp. now left.
        - apply IH. intros. apply Rp. now right. }
      assert (B : rsum (map (fun x => x / S) us) = rsum us / S).
      { clear. clearbody S us. induction us as [|x l IH]; cbn; [unfold Rdiv; lra|]. rewrite IH. unfold Rdiv. ring. }
      rewrite B in A.
      pose proof (rel_div 0 (/ 1073741824) _ _ _ _ ltac:(lra) ltac:(lra) (rel_refl (rsum us) Pu) R1) as C.
      replace (rsum us / rsum us) with 1 in C by (field; lra).
      eapply rel_weaken; [|eapply rel_trans; [| |exact A|exact C]]; unfold eps64; lra.
    - intros j q Hj. unfold p in Hj. rewrite nth_error_map in Hj. destruct (nth_error us j) as [x|] eqn:Ex; [|discriminate]. injection Hj as <-.
      assert (Hx : x = computed drawn j).
      { unfold us in Ex. rewrite nth_error_map in Ex. destruct (nth_error (seq 0 N) j) as [j'|] eqn:Ej; [|discriminate]. injection Ex as <-.
        f_equal. assert (j < N)%nat by (rewrite <- (seq_length N 0); apply nth_error_Some; congruence).
        rewrite (nth_error_nth' _ 0%nat), seq_nth in Ej by (rewrite ?seq_length; lia). cbn in Ej. congruence. }
      assert (E20 : / 2 ^ 20 = / 1048576) by (rewrite (pow_IZR 2 20); reflexivity). rewrite E20.
      pose proof (computed_rel drawn j Hd) as A. rewrite <- Hx in A.
      pose proof (rel_trans (/ 1073741824) (/ 4194304) _ _ _ ltac:(lra) ltac:(lra) R1 F2) as B.
      pose proof (fun H1 H2 => rel_div _ _ _ _ _ _ H1 H2 A B) as C. specialize (C ltac:(lra) ltac:(lra)).
      eapply rel_weaken; [|eapply rel_trans; [| |apply Rp; eapply nth_error_In; eauto|exact C]]; unfold eps64; lra.
  Qed.

  (** ** The exact values are those of the specification *)
  Lemma Q2R_Qn n : Q2R (Qn n) = INR n.
  Proof. unfold Q2R, Qn. cbn. rewrite Rinv_1, Rmult_1_r. symmetry. apply INR_IZR_INZ. Qed.
  Lemma Q2R_qsum l : Q2R (qsum l) = rsum (map Q2R l).
  Proof. induction l as [|x l IH]; cbn; [unfold Q2R; cbn; lra|]. rewrite Q2R_plus. unfold qsum in IH. now rewrite IH. Qed.
  Lemma exact_spec drawn j : exact drawn j = Q2R (uniqueness_after T cov drawn j).
  Proof.
    unfold exact, uniqueness_after. destruct (rows_of T cov j) as [|t0 r]; [unfold Q2R; cbn; lra|].
    set (rows := t0 :: r). assert (Hne : length rows <> 0%nat) by discriminate. clearbody rows.
    unfold qmean. rewrite map_length, Q2R_div, Q2R_Qn, Q2R_qsum, map_map; [|now apply Qn_neq0; lia].
    f_equal. f_equal. apply map_ext. intros t. rewrite Q2R_inv, Q2R_plus, Q2R_Qn.
    - rewrite plus_INR. f_equal. f_equal. unfold Q2R. cbn. lra.
    - pose proof (Qn_nonneg (count (cov t) drawn)). intros E. apply Qlt_not_eq with (x := 0%Q) (y := (1 + Qn (count (cov t) drawn))%Q); [|now symmetry].
      apply Qlt_le_trans with 1%Q; [reflexivity|]. rewrite <- (Qplus_0_r 1) at 1. apply Qplus_le_compat; [apply Qle_refl|auto].
  Qed.
  Lemma exact_probability drawn j : (0 < N)%nat ->
    exact drawn j / rsum (map (exact drawn) (seq 0 N)) = Q2R (draw_probability T cov N drawn j).
  Proof.
    intros HN. unfold draw_probability. rewrite Q2R_div, Q2R_qsum, map_map, exact_spec.
    - f_equal. f_equal. apply map_ext. intros. apply exact_spec.
    - assert (0 < qsum (map (uniqueness_after T cov drawn) (seq 0 N)))%Q as P.
      { apply qsum_pos; [|intros E; apply map_eq_nil in E; destruct N; [lia|discriminate]].
        intros x Hx. apply in_map_iff in Hx. destruct Hx as (t & <- & _). apply (U_pos m). }
      intros E. rewrite E in P. discriminate.
  Qed.
End Unique.
