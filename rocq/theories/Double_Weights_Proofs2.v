(** The time-decay weights of a table of labels in double precision. *)
From Coq Require Import Reals ZArith QArith Qreals Lia Lra List Psatz Permutation Sorted.
From Flocq Require Import Core.
From Verif Require Import PreludeFacts Series QSum QSumFacts Boot_Spec Boot_Model Boot_Proofs Boot_Proofs2 Weights_Spec Weights_Model Weights_Proofs
  Double_Model Double_Spec Double_Proofs Double_Proofs2 Double_Boot_Model Double_Boot_Proofs Double_Boot_Proofs2 Double_Boot_Proofs3 Double_Boot_Proofs5
  Double_Weights_Model Double_Weights_Proofs.
Import ListNotations.
Local Open Scope R_scope.

Local Notation DA := Arith_double.
Local Notation dcums := Double_Boot_Proofs2.cums.
Local Notation rsum := Double_Boot_Proofs.rsum.
Definition labelled (samples : list (Z * Z)) : list (Z * option Z) := map (fun s => (fst s, Some (snd s))) samples.

(** ** The average uniqueness *)
Definition like (a : Z * R) (b : Z * Q) : Prop :=
  fst a = fst b /\ is_double (snd a) /\ / 9007199254740992 <= snd a <= 1 /\ rel (/ 33554432) (snd a) (Q2R (snd b)).

Lemma row_count samples m idx : get_ind_matrix (complete samples) (map fst samples) = Ok (m, idx) -> (nrows m <= 2 * length samples)%nat.
Proof.
  intros E. destruct (c13 _ _ _ _ E) as (_ & -> & H3 & H4 & _).
  assert (NoDup idx) as N.
  { clear - H3. unfold increasingZ in H3. induction H3 as [|x l H IH HF]; constructor; auto. intros Hin. rewrite Forall_forall in HF. specialize (HF _ Hin). lia. }
  assert (incl idx (map fst samples ++ map snd samples)) as I.
  { intros t Ht. apply in_or_app. apply H4 in Ht. destruct Ht as [(s & e & Hin & [->| ->])|(Hin & _)].
    - left. now apply (in_map fst) in Hin.
    - right. now apply (in_map snd) in Hin.
    - now left. }
  pose proof (NoDup_incl_length N I) as L. rewrite app_length, !map_length in L. lia.
Qed.
Lemma rel_of_within d x y : 0 < y -> within_rel d x y -> rel d x y.
Proof. intros P H. unfold within_rel in H. rewrite (Rabs_pos_eq y) in H by lra. apply Rabs_le_inv in H. split; auto. lra. Qed.

Lemma combine_Forall2 {A B C} (P : A * B -> A * C -> Prop) (k : list A) : forall (a : list B) (b : list C), length a = length k -> length b = length k ->
  (forall i t x y, nth_error k i = Some t -> nth_error a i = Some x -> nth_error b i = Some y -> P (t, x) (t, y)) ->
  Forall2 P (combine k a) (combine k b).
Proof.
  induction k as [|t k IH]; intros [|x a] [|y b] Ha Hb H; cbn in *; try discriminate; constructor.
  - apply (H 0%nat); reflexivity.
  - apply IH; try lia. intros i. apply (H (S i)).
Qed.

Lemma uniqueness_double samples : in_order samples -> (Z.of_nat (length samples) <= 2 ^ 25)%Z ->
  match average_uniqueness_transform (labelled samples) with
  | Ok av => exists us ur, av = map (fun r => (fst r, Some (snd r))) us /\
      average_uniqueness_transform_double (labelled samples) = Ok (map (fun r => (fst r, Some (snd r))) ur) /\ Forall2 like ur us
  | Err e => average_uniqueness_transform_double (labelled samples) = Err e
  end.
Proof.
  intros Ho Hn. unfold labelled. destruct (average_uniqueness_transform _) as [av|err] eqn:EA.
  - destruct (all_finite samples av Ho EA) as (us & Eav & Hp & Hm & HN & Hne).
    unfold average_uniqueness_transform_double. unfold average_uniqueness_transform in EA.
    destruct (existsb _ _); [discriminate|]. destruct (has_dup _); [discriminate|]. rewrite !map_map in *. cbn [fst snd] in *.
    change (map (fun x => (Some (fst x), Some (snd x))) samples) with (complete samples) in *. change (map (fun x => fst x) samples) with (map fst samples) in *.
    destruct (get_ind_matrix (complete samples) (map fst samples)) as [[m idx]|] eqn:E; [|discriminate]. cbn [bind fst] in *.
    injection EA as EA. rewrite Eav in EA.
    pose proof (row_count _ _ _ E) as HR. destruct (c13 _ _ _ _ E) as (H1 & H2 & H3 & H4 & H5).
    assert (HU : forall j, (j < length samples)%nat -> exists u q, nth_error (calc_average_uniqueness_double m) j = Some (Some u) /\
      nth_error (calc_average_uniqueness m) j = Some (Some q) /\ is_double u /\ / 9007199254740992 <= u <= 1 /\ rel (/ 33554432) u (Q2R q)).
    { intros j Hj. destruct (nth_error samples j) as [[s e]|] eqn:Es; [|apply nth_error_None in Es; lia].
      assert (j < ncols m)%nat as Hjn by lia.
      assert (rows_of (nrows m) (entry m) j <> []) as Hrow.
      { assert (In s idx) as Hin by (apply H4; left; exists s, e; split; [eapply nth_error_In; eauto|auto]).
        apply In_nth_error in Hin. destruct Hin as (t & Ht). intros En.
        assert (In t (rows_of (nrows m) (entry m) j)) as Hr; [|rewrite En in Hr; destruct Hr].
        apply rows_of_In. split; [rewrite H2; apply nth_error_Some; congruence|]. apply (H5 t j s s e); auto.
        specialize (Ho s e (nth_error_In _ _ Es)). lia. }
      destruct (c15_value m j Hjn Hrow) as (q & Hq & Eq).
      destruct (c15_bounds (nrows m) (entry m) (ncols m) j Hjn Hrow) as [(B1 & B2 & _) _].
      destruct (average_uniqueness_double_bounds m j ltac:(lia) ltac:(lia) Hjn Hrow) as (u & Hu & Du & Bu).
      exists u, q. split; [exact Hu|split; [exact Hq|split; [exact Du|split; [exact Bu|]]]].
      pose proof (average_uniqueness_double_rel m j u ltac:(lia) ltac:(lia) Hjn Hu) as W.
      assert (/ 2 ^ 25 = / 33554432) as E25 by (rewrite (pow_IZR 2 25); reflexivity). rewrite E25 in W.
      rewrite (Qeq_eqR _ _ Eq). apply rel_of_within; auto. apply Qlt_Rlt in B1. unfold Q2R at 1 in B1. cbn in B1. lra. }
    assert (Ld : length (calc_average_uniqueness_double m) = length samples) by (unfold calc_average_uniqueness_double, all_cols; rewrite map_length, seq_length; exact H1).
    assert (Lq : length (calc_average_uniqueness m) = length samples) by (unfold calc_average_uniqueness, all_cols; rewrite map_length, seq_length; exact H1).
    set (vals := map (fun o : option R => match o with Some u => u | None => 0 end) (calc_average_uniqueness_double m)).
    assert (EV : calc_average_uniqueness_double m = map Some vals).
    { unfold vals. rewrite map_map. rewrite <- map_id at 1. apply map_ext_in. intros o Hin. apply In_nth_error in Hin as [j Hj].
      assert (j < length samples)%nat as Hl by (rewrite <- Ld; apply nth_error_Some; congruence).
      destruct (HU j Hl) as (u & q & Hu & _). rewrite Hu in Hj. injection Hj as <-. reflexivity. }
    exists us, (combine (map fst samples) vals). split; [exact Eav|]. split.
    { f_equal. rewrite EV. clear. generalize (map fst samples) as k. induction vals as [|v l IH]; intros [|t k]; cbn; auto. now rewrite IH. }
    assert (EQ : us = combine (map fst samples) (map snd us)).
    { rewrite <- Hm. clear. induction us as [|[t q] l IH]; cbn; auto. now rewrite <- IH. }
    assert (EQ' : calc_average_uniqueness m = map Some (map snd us)).
    { assert (map snd (combine (map fst samples) (calc_average_uniqueness m)) = calc_average_uniqueness m) as <-.
      { clear - Lq. rewrite <- (map_length fst) in Lq. revert Lq. generalize (map fst samples) as k. generalize (calc_average_uniqueness m) as l.
        induction l as [|v l IH]; intros [|t k] L; cbn in *; try discriminate; auto. rewrite IH by lia. reflexivity. }
      rewrite EA, !map_map. reflexivity. }
    rewrite EQ. apply combine_Forall2.
    + unfold vals. now rewrite !map_length.
    + rewrite <- Hm, !map_length. reflexivity.
    + intros i t u q Ht Hu Hq.
      assert (i < length samples)%nat as Hl by (rewrite <- (map_length fst samples); apply nth_error_Some; congruence).
      destruct (HU i Hl) as (u' & q' & Hu' & Hq' & D & B & R). rewrite EV, nth_error_map, Hu in Hu'. injection Hu' as <-.
      rewrite EQ', nth_error_map, Hq in Hq'. injection Hq' as <-. split; [reflexivity|]. auto.
  - unfold average_uniqueness_transform_double. unfold average_uniqueness_transform in EA.
    destruct (existsb _ _); [injection EA as ->; reflexivity|].
    destruct (has_dup _); [congruence|]. destruct (get_ind_matrix _ _) as [[m idx]|]; cbn [bind] in *; [discriminate|congruence].
Qed.

(** ** Sorting and cumulative sums *)
Lemma insert_Forall2 (a : Z * R) (b : Z * Q) : like a b -> forall ur us, Forall2 like ur us -> Forall2 like (insert_row a ur) (insert_row b us).
Proof.
  intros Hab ur us H. induction H as [|x y l l' Hxy H IH]; cbn; [auto|].
  destruct Hab as (E & Hab), Hxy as (E' & Hxy). rewrite E, E'. destruct (fst b <=? fst y)%Z; constructor; try split; auto. constructor; auto. now split.
Qed.
Lemma sort_Forall2 ur us : Forall2 like ur us -> Forall2 like (sort_index ur) (sort_index us).
Proof. induction 1; cbn; auto. now apply insert_Forall2. Qed.

Lemma cumsum_from_double l : forall a, @Series.cumsum_from R DA (Fin a) (map (@Fin R) l) = map (@Fin R) (Double_Boot_Model.cumsum_from a l).
Proof. induction l as [|x l IH]; intros a; [reflexivity|]. cbn -[to_double]. now rewrite IH. Qed.
Lemma cumsum_double l : Forall is_double l -> @cumsum R DA (map (@Fin R) l) = map (@Fin R) (dcums l).
Proof.
  intros D. unfold cumsum. rewrite cumsum_from_double. f_equal. destruct l as [|x l]; [reflexivity|]. inversion D; subst. cbn -[to_double].
  change (@a0 R DA) with 0. rewrite Rplus_0_l, to_double_id by auto. reflexivity.
Qed.
Lemma last_rev {A} (l : list A) d : l <> [] -> exists r, rev l = last l d :: r.
Proof.
  intros H. destruct (exists_last H) as (r & x & ->). rewrite rev_unit, last_last. eauto.
Qed.

(** The model's weights are the ones of Double_Weights_Proofs.v. *)
Lemma decay_weights_double c us : us <> [] -> Forall is_double us -> / 9007199254740992 <= last (dcums us) 0 ->
  -1 + / 4503599627370496 <= c -> is_double c ->
  @decay_weights R DA c (map (@Fin R) us) = Ok (map (fun x => Fin (weight c (last (dcums us) 0) x)) (dcums us)).
Proof.
  intros Hne D HT Hc Dc. unfold decay_weights. rewrite (cumsum_double us D), <- map_rev.
  assert (dcums us <> []) as Hce by (destruct us; [congruence|discriminate]).
  destruct (last_rev (dcums us) 0 Hce) as (r & ->). set (T := last (dcums us) 0) in *. cbn [map].
  assert (ES : (if @altb R DA c (@a0 R DA) then @ediv R DA (Fin (@a1 R DA)) (@emul R DA (Fin (@aadd R DA c (@a1 R DA))) (Fin T))
     else @ediv R DA (Fin (@aadd R DA (@a1 R DA) (@aopp R DA c))) (Fin T)) = Fin (slope c T)).
  { unfold slope. cbn -[to_double]. destruct (Rlt_dec c 0) as [N|N].
    - assert (0 < to_double (to_double (c + 1) * T)) as P.
      { destruct (sum_rel c 1 Dc is_double_1 ltac:(lra)) as (_ & L & _). assert (/ 9007199254740992 <= to_double (c + 1)) as B by (unfold eps64 in L; lra).
        assert (/ 9007199254740992 * / 9007199254740992 <= to_double (c + 1) * T) as B2 by (apply Rmult_le_compat; lra).
        destruct (double_rel (to_double (c + 1) * T)) as (P1 & P2 & _); [apply small_normal; lra|]. unfold eps64 in P2. lra. }
      destruct (Req_EM_T (to_double (to_double (c + 1) * T)) 0); [lra|]. reflexivity.
    - destruct (Req_EM_T T 0); [lra|]. reflexivity. }
  rewrite ES. f_equal. rewrite !map_map. apply map_ext. intros x. cbn -[to_double]. unfold weight, intercept, clip.
  change (1 + - to_double (slope c T * T)) with (1 - to_double (slope c T * T)). now destruct (Rlt_dec _ 0).
Qed.

(** ** The cumulative sums against the exact ones *)
Lemma Forall2_nth {A B} (P : A -> B -> Prop) l m : Forall2 P l m -> forall i x, nth_error l i = Some x -> exists y, nth_error m i = Some y /\ P x y.
Proof. induction 1 as [|a b l m H HF IH]; intros [|i] x Hi; cbn in *; try discriminate; [injection Hi as <-; eauto|eauto]. Qed.
Lemma sorted_nth {A} (P : A -> A -> Prop) l : StronglySorted P l -> forall i j x y, nth_error l i = Some x -> nth_error l j = Some y -> (i < j)%nat -> P x y.
Proof.
  induction 1 as [|a l HS IH HF]; intros [|i] [|j] x y Hi Hj L; cbn in *; try discriminate; try lia.
  - injection Hi as <-. rewrite Forall_forall in HF. apply HF. eapply nth_error_In; eauto.
  - eapply IH; eauto. lia.
Qed.

Lemma like_double a b : Forall2 like a b -> Forall is_double (map snd a).
Proof. induction 1 as [|x y l l' (_ & H & _) _ IH]; cbn; auto. Qed.
Lemma like_bounds a b : Forall2 like a b -> Forall (fun u => / 9007199254740992 <= u <= 1) (map snd a).
Proof. induction 1 as [|x y l l' (_ & _ & H & _) _ IH]; cbn; auto. Qed.
Lemma like_rel a b : Forall2 like a b -> Forall2 (rel (/ 33554432)) (map snd a) (map Q2R (map snd b)).
Proof. induction 1 as [|x y l l' (_ & _ & _ & H) _ IH]; cbn; auto. Qed.
Lemma like_length a b : Forall2 like a b -> length a = length b.
Proof. induction 1; cbn; auto. Qed.
Lemma like_times a b : Forall2 like a b -> map fst a = map fst b.
Proof. induction 1 as [|x y l l' (H & _) _ IH]; cbn; congruence. Qed.

Section Table.
  Variable s : list (Z * R).       (* times and uniqueness, in doubles, sorted by time *)
  Variable s' : list (Z * Q).      (* the exact ones *)
  Hypothesis Hlike : Forall2 like s s'.
  Hypothesis Hne : s <> [].
  Hypothesis Hn : (Z.of_nat (length s) <= 2 ^ 25)%Z.
  Let us := map snd s.
  Let qs := map snd s'.
  Let T := last (dcums us) 0.

  Lemma len_INR k : (k <= length s)%nat -> INR k <= 33554432.
  Proof. intros H. rewrite INR_IZR_INZ. apply IZR_le. lia. Qed.
  Lemma us_double : Forall is_double us.
  Proof. exact (like_double _ _ Hlike). Qed.
  Lemma us_bounds : Forall (fun u => / 9007199254740992 <= u <= 1) us.
  Proof. exact (like_bounds _ _ Hlike). Qed.
  Lemma us_rel : Forall2 (rel (/ 33554432)) us (map Q2R qs).
  Proof. exact (like_rel _ _ Hlike). Qed.
  Lemma us_nonneg : Forall (Rle 0) us.
  Proof. eapply Forall_impl; [|exact us_bounds]. cbn. intros. lra. Qed.
  Lemma us_ne : us <> []. Proof. unfold us. destruct s; [congruence|discriminate]. Qed.
  Lemma rsum_le_length l : Forall (fun u => u <= 1) l -> rsum l <= INR (length l).
  Proof. induction 1 as [|x l H HF IH]; cbn [Double_Boot_Proofs.rsum length]; [cbn; lra|]. rewrite S_INR. lra. Qed.

  Lemma cum_rel k x : nth_error (dcums us) k = Some x ->
    rel (/ 26000000) x (Q2R (qsum (firstn (S k) qs))) /\ is_double x /\ / 9007199254740992 <= x <= 9007199254740992.
  Proof.
    intros Hk. pose proof (cums_added us k x Hk) as HA.
    assert (k < length us)%nat as Hl by (rewrite <- Double_Boot_Proofs2.cums_length; apply nth_error_Some; congruence).
    assert (length us = length s) as Lu by apply map_length.
    assert (length (firstn (S k) us) = S k) as Lf by (rewrite firstn_length; lia).
    pose proof (Forall_firstn _ (S k) _ us_double) as D. pose proof (Forall_firstn _ (S k) _ us_nonneg) as N.
    pose proof (Forall_firstn _ (S k) _ us_bounds) as B.
    pose proof (Forall2_firstn _ (S k) _ _ us_rel) as R.
    assert (firstn (S k) us <> []) as Fne by (intros E; rewrite E in Lf; discriminate).
    pose proof (rel_sum _ _ _ Fne R) as RS.
    assert (0 < rsum (firstn (S k) us)) as P by (eapply rel_pos; [|exact RS]; lra).
    pose proof (len_INR (S k) ltac:(lia)) as HI. pose proof (pos_INR (S k)) as HI0.
    assert (INR (S k) * eps64 <= / 268435456) as HE.
    { apply Rle_trans with (33554432 * eps64); [apply Rmult_le_compat_r; [pose proof eps64_pos; lra|lra]|]. unfold eps64. lra. }
    destruct (added_rel _ _ HA D N P ltac:(rewrite Lf; lra)) as (Dx & RX). rewrite Lf in RX.
    apply (rel_weaken _ (/ 134217728)) in RX; [|lra].
    split; [|split; [exact Dx|]].
    - rewrite Q2R_qsum, <- firstn_map. eapply rel_weaken; [|eapply rel_trans; [| |exact RX|exact RS]]; lra.
    - pose proof (cums_sorted us us_double us_nonneg) as HS.
      assert (nth_error (dcums us) 0 = nth_error us 0) as E0 by (destruct us; reflexivity).
      destruct (nth_error us 0) as [u0|] eqn:Eu; [|apply nth_error_None in Eu; lia].
      assert (/ 9007199254740992 <= u0) as L0 by (pose proof us_bounds as UB; rewrite Forall_forall in UB; apply (UB u0 (nth_error_In _ _ Eu))).
      split.
      + destruct k as [|k]; [rewrite E0 in Hk; injection Hk as <-; exact L0|]. pose proof (sorted_nth _ _ HS 0 (S k) u0 x E0 Hk ltac:(lia)). lra.
      + destruct RX as (_ & _ & U).
        assert (rsum (firstn (S k) us) <= INR (S k)) as G.
        { rewrite <- Lf at 2. apply rsum_le_length. eapply Forall_impl; [|exact B]. cbn. intros; lra. }
        nra.
  Qed.
  Lemma last_nth : nth_error (dcums us) (length s - 1) = Some T.
  Proof.
    unfold T. rewrite <- (map_length snd s). fold us. rewrite <- Double_Boot_Proofs2.cums_length. apply nth_error_last.
    pose proof us_ne. destruct us; [congruence|discriminate].
  Qed.
  Lemma T_bounds : / 9007199254740992 <= T <= 9007199254740992.
  Proof. apply (cum_rel _ _ last_nth). Qed.
  Lemma T_largest x : In x (dcums us) -> x <= T.
  Proof.
    intros Hin. apply In_nth_error in Hin as [k Hk]. pose proof last_nth as HL.
    assert (k < length s)%nat as Hl by (rewrite <- (map_length snd s); fold us; rewrite <- Double_Boot_Proofs2.cums_length; apply nth_error_Some; congruence).
    destruct (Nat.eq_dec k (length s - 1)) as [->|Hd]; [assert (x = T) by congruence; lra|].
    apply (sorted_nth _ _ (cums_sorted us us_double us_nonneg) k (length s - 1)%nat x T Hk HL). lia.
  Qed.
  Lemma share_rel k x : nth_error (dcums us) k = Some x -> rel (/ 12000000) (x / T) (Q2R (qsum (firstn (S k) qs)) / Q2R (qsum qs)).
  Proof.
    intros Hk. destruct (cum_rel k x Hk) as (R1 & _). destruct (cum_rel _ _ last_nth) as (R2 & _).
    assert (length qs = length s) as Lq by (unfold qs; rewrite map_length; symmetry; exact (like_length _ _ Hlike)).
    replace (firstn (S (length s - 1)) qs) with qs in R2.
    2: { symmetry. apply firstn_all2. lia. }
    eapply rel_weaken; [|eapply rel_div; [| |exact R1|exact R2]]; lra.
  Qed.
End Table.
