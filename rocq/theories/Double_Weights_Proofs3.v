(** The time-decay weights in double precision: the statements of C111. *)
From Coq Require Import Reals ZArith QArith Qreals Lia Lra List Psatz Permutation Sorted.
From Flocq Require Import Core.
From Verif Require Import PreludeFacts Series QSum QSumFacts Boot_Spec Boot_Model Boot_Proofs Boot_Proofs2 Weights_Spec Weights_Model Weights_Proofs Cusum_Proofs
  Double_Model Double_Spec Double_Proofs Double_Proofs2 Double_Boot_Model Double_Boot_Proofs Double_Boot_Proofs2 Double_Boot_Proofs3 Double_Boot_Proofs5
  Double_Weights_Model Double_Weights_Proofs Double_Weights_Proofs2.
Import ListNotations.
Local Open Scope R_scope.
Local Notation dcums := Double_Boot_Proofs2.cums.

Lemma sorted_share (us : list (Z * Q)) k t u : NoDup (map fst us) -> nth_error (sort_index us) k = Some (t, u) ->
  (qsum (firstn (S k) (map snd (sort_index us))) / qsum (map snd (sort_index us)) == share us t)%Q.
Proof.
  intros HN Hk. pose proof (sort_index_perm us) as HP. pose proof (sort_index_sorted us HN) as HS. set (s := sort_index us) in *.
  unfold share. rewrite firstn_map. erewrite <- (firstn_sorted_filter s HS k t u Hk).
  assert (forall p, (qsum (map snd (filter p s)) == qsum (map snd (filter p us)))%Q) as HPF.
  { intros p. apply qsum_perm, Permutation_map. clear - HP. induction HP; cbn; auto.
    - destruct (p x); auto.
    - destruct (p x), (p y); auto; try apply perm_swap.
    - etransitivity; eauto. }
  rewrite HPF. assert ((qsum (map snd s) == qsum (map snd us))%Q) as -> by (apply qsum_perm, Permutation_map; auto). reflexivity.
Qed.

Lemma Q2R_1 : Q2R 1 = 1. Proof. unfold Q2R. cbn. lra. Qed.
Lemma Q2R_0 : Q2R 0 = 0. Proof. unfold Q2R. cbn. lra. Qed.
Lemma decayed_real c u : (-1 < c)%Q -> (c <= 1)%Q -> (0 <= u <= 1)%Q -> Q2R (decayed c u) = Rmax 0 (1 - steep (Q2R c) * (1 - Q2R u)).
Proof.
  intros H1 H2 [U0 U1]. apply Qlt_Rlt in H1. apply Qle_Rle in H2, U0, U1. rewrite Q2R_1, ?Q2R_0 in *.
  replace (Q2R (- (1))) with (-1) in H1 by (unfold Q2R; cbn; lra).
  unfold decayed, steep. destruct (Qle_bool 0 c) eqn:E.
  - apply Qle_bool_iff, Qle_Rle in E. rewrite Q2R_0 in E. destruct (Rlt_dec (Q2R c) 0); [lra|].
    rewrite Q2R_plus, Q2R_mult, Q2R_minus, Q2R_1. rewrite Rmax_right by nra. ring.
  - assert (Q2R c < 0) as N.
    { destruct (Rlt_dec (Q2R c) 0); auto. exfalso. assert (Qle_bool 0 c = true) by (apply Qle_bool_iff, Rle_Qle; rewrite Q2R_0; lra). congruence. }
    destruct (Rlt_dec (Q2R c) 0); [|lra]. assert (0 < / (1 + Q2R c)) as PI by (apply Rinv_0_lt_compat; lra).
    assert (EI : / (1 + Q2R c) * (1 + Q2R c) = 1) by (apply Rinv_l; lra).
    assert (EL : 1 - / (1 + Q2R c) * (1 - Q2R u) = / (1 + Q2R c) * (Q2R c + Q2R u)) by nra. rewrite EL.
    destruct (Qle_bool u (- c)) eqn:E2.
    + apply Qle_bool_iff, Qle_Rle in E2. rewrite Q2R_opp in E2. rewrite Q2R_0, Rmax_left by nra. reflexivity.
    + assert (- Q2R c < Q2R u) as N2.
      { destruct (Rlt_dec (- Q2R c) (Q2R u)); auto. exfalso. assert (Qle_bool u (- c) = true) by (apply Qle_bool_iff, Rle_Qle; rewrite Q2R_opp; lra). congruence. }
      rewrite Rmax_right by nra. rewrite Q2R_div, !Q2R_minus, Q2R_opp, Q2R_1.
      * field. lra.
      * intros HE. apply Qeq_eqR in HE. rewrite Q2R_minus, Q2R_opp, Q2R_1, Q2R_0 in HE. lra.
Qed.

Section Main.
  Variables (c : Q) (samples : list (Z * Z)).
  Hypothesis Dc : is_double (Q2R c).
  Hypothesis Hc : -1 + / 4503599627370496 <= Q2R c <= 1.
  Hypothesis Ho : in_order samples.
  Hypothesis Hn : (Z.of_nat (length samples) <= 2 ^ 25)%Z.

  (* the table of weights *)
  Lemma decay_double_table : match average_uniqueness_transform (labelled samples) with
    | Ok av => exists us ur, av = map (fun r => (fst r, Some (snd r))) us /\ Forall2 like ur us /\ us <> [] /\ (forall u, In u (map snd us) -> 0 < u)%Q /\
        map fst us = map fst samples /\ NoDup (map fst us) /\
        decay_transform_double (Q2R c) (labelled samples) =
          Ok (combine (map fst (sort_index ur)) (map (fun x => Fin (weight (Q2R c) (last (dcums (map snd (sort_index ur))) 0) x)) (dcums (map snd (sort_index ur)))))
    | Err e => decay_transform_double (Q2R c) (labelled samples) = Err e
    end.
  Proof.
    pose proof (uniqueness_double samples Ho Hn) as HU. unfold decay_transform_double. destruct (Rlt_dec 1 (Q2R c)); [lra|].
    destruct (average_uniqueness_transform (labelled samples)) as [av|e] eqn:EA; [|now rewrite HU].
    destruct HU as (us & ur & Eav & -> & HL). cbn [bind].
    destruct (all_finite samples av Ho EA) as (us' & Eav' & Hp & Hm & HN & Hne).
    assert (us' = us) as ->.
    { assert (forall a b : list (Z * Q), map (fun r => (fst r, Some (snd r))) a = map (fun r => (fst r, Some (snd r))) b -> a = b) as Inj.
      { clear. induction a as [|[x p] a IH]; intros [|[y q] b] H; cbn in H; try discriminate; auto. injection H as -> -> H. f_equal; auto. }
      apply Inj. congruence. }
    exists us, ur. split; [exact Eav|split; [exact HL|split; [exact Hne|split; [exact Hp|split; [exact Hm|split; [now rewrite Hm|]]]]]].
    rewrite sort_index_map. pose proof (sort_Forall2 _ _ HL) as HLs.
    assert (HSne : sort_index ur <> []).
    { intros E. pose proof (sort_index_perm ur) as HP. rewrite E in HP. apply Permutation_nil in HP. subst ur. inversion HL; subst. congruence. }
    assert (HSn : (Z.of_nat (length (sort_index ur)) <= 2 ^ 25)%Z).
    { rewrite (Permutation_length (sort_index_perm ur)), (like_length _ _ HL), <- (map_length fst us), Hm, map_length. exact Hn. }
    rewrite !map_map. cbn [fst snd of_opt].
    change (map (fun x => fst x) (sort_index ur)) with (map fst (sort_index ur)).
    rewrite <- (map_map snd (@Fin R)).
    rewrite decay_weights_double; auto.
    - intros E. apply map_eq_nil in E. auto.
    - exact (like_double _ _ HLs).
    - apply (T_bounds _ _ HLs HSne HSn).
    - lra.
  Qed.

  Lemma c111_weights out : decay_transform_double (Q2R c) (labelled samples) = Ok out ->
    exists us, average_uniqueness_transform (labelled samples) = Ok (map (fun r => (fst r, Some (snd r))) us) /\
    increasingZ (map fst out) /\ Permutation (map fst out) (map fst samples) /\
    (forall t w, In (t, w) out -> exists q, w = Fin q /\ is_double q /\ 0 <= q <= 1 /\
       ((0 <= c)%Q -> 0 < q) /\ ((c == 1)%Q -> q = 1) /\ ((forall t' w', In (t', w') out -> (t' <= t)%Z) -> q = 1) /\
       Rabs (q - Q2R (decayed c (share us t))) * Rmin 1 (1 + Q2R c) <= / 2 ^ 23) /\
    (forall t q t' q', In (t, Fin q) out -> In (t', Fin q') out -> (t <= t')%Z -> q <= q').
  Proof.
    intros H. pose proof decay_double_table as HT. destruct (average_uniqueness_transform (labelled samples)) as [av|e]; [|congruence].
    destruct HT as (us & ur & -> & HL & Hne & Hp & Hm & HN & E). rewrite E in H. clear E.
    exists us. split; [reflexivity|].
    pose proof (sort_Forall2 _ _ HL) as HLs. set (s := sort_index ur) in *. set (s' := sort_index us) in *.
    assert (HSne : s <> []).
    { intros E. pose proof (sort_index_perm ur) as HP. fold s in HP. rewrite E in HP. apply Permutation_nil in HP. subst ur. inversion HL; subst. congruence. }
    assert (HSn : (Z.of_nat (length s) <= 2 ^ 25)%Z).
    { unfold s. rewrite (Permutation_length (sort_index_perm ur)), (like_length _ _ HL), <- (map_length fst us), Hm, map_length. exact Hn. }
    pose proof (T_bounds s s' HLs HSne HSn) as HTb. set (T := last (dcums (map snd s)) 0) in *.
    set (W := fun x => Fin (weight (Q2R c) T x)) in H.
    assert (HK : map fst s = map fst s') by exact (like_times _ _ HLs).
    assert (Lc : length (dcums (map snd s)) = length s) by (rewrite Double_Boot_Proofs2.cums_length, map_length; reflexivity).
    assert (HF : map fst out = map fst s).
    { injection H as <-. apply map_fst_combine. rewrite !map_length, Lc. lia. }
    assert (HS : increasingZ (map fst s)) by (rewrite HK; apply sort_index_sorted; auto).
    assert (HIn : forall t w, In (t, w) out -> exists k x, nth_error (map fst s) k = Some t /\ nth_error (dcums (map snd s)) k = Some x /\ w = Fin (weight (Q2R c) T x)).
    { intros t w Hin. injection H as <-. apply in_combine_nth in Hin as (k & Ht & Hw). rewrite nth_error_map in Hw.
      destruct (nth_error (dcums (map snd s)) k) as [x|] eqn:Ex; [|discriminate]. injection Hw as <-. exists k, x. auto. }
    split; [now rewrite HF|]. split.
    { rewrite HF, HK, <- Hm. apply Permutation_map, sort_index_perm. }
    split.
    - intros t w Hin. destruct (HIn t w Hin) as (k & x & Ht & Hx & ->). exists (weight (Q2R c) T x).
      destruct (cum_rel s s' HLs HSn k x Hx) as (_ & _ & Bx & _).
      pose proof (T_largest s s' HLs HSne HSn x (nth_error_In _ _ Hx)) as LT. fold T in LT.
      split; [reflexivity|]. split; [apply weight_double|]. split; [apply weight_range; auto|]. split; [|split; [|split]].
      + intros P. apply Qle_Rle in P. rewrite Q2R_0 in P. apply weight_positive; auto.
      + intros E1. apply weight_no_decay; auto. rewrite (Qeq_eqR _ _ E1). apply Q2R_1.
      + intros Hall. assert (x = T) as ->; [|apply weight_newest; auto].
        pose proof (last_nth s s' HLs HSne HSn) as HLn. fold T in HLn.
        assert (k < length s)%nat as Hk by (rewrite <- Lc; apply nth_error_Some; congruence).
        destruct (Nat.eq_dec k (length s - 1)) as [->|Hd]; [congruence|]. exfalso.
        destruct (nth_error (map fst s) (length s - 1)) as [t'|] eqn:Et'; [|apply nth_error_None in Et'; rewrite map_length in Et'; lia].
        pose proof (sorted_nth _ _ HS k (length s - 1)%nat t t' Ht Et' ltac:(lia)) as Hlt.
        assert (In (t', W T) out) as Hin'.
        { injection H as <-. eapply nth_error_In with (n := (length s - 1)%nat). apply nth_error_combine; [exact Et'|]. now rewrite nth_error_map, HLn. }
        specialize (Hall _ _ Hin'). lia.
      + pose proof (share_rel s s' HLs HSne HSn k x Hx) as RS. fold T in RS.
        rewrite HK, nth_error_map in Ht. destruct (nth_error s' k) as [[t' u]|] eqn:Es; [|discriminate]. injection Ht as ->. 
        pose proof (sorted_share us k t u HN Es) as ESh. fold s' in ESh.
        assert (Hq : ~ (qsum (map snd s') == 0)%Q).
        { intros E0. apply Qeq_eqR in E0. destruct (cum_rel s s' HLs HSn _ _ (last_nth s s' HLs HSne HSn)) as ((P & _) & _).
          replace (firstn (S (length s - 1)) (map snd s')) with (map snd s') in P; [rewrite E0, Q2R_0 in P; lra|].
          symmetry. apply firstn_all2. rewrite map_length. rewrite <- (like_length _ _ HLs). lia. }
        rewrite <- Q2R_div in RS by exact Hq. rewrite (Qeq_eqR _ _ ESh) in RS.
        destruct (share_bounds us t Hne Hp) as (Bs & _).
        assert (-1 < c)%Q as C1 by (apply Rlt_Qlt; replace (Q2R (-1)) with (-1) by (unfold Q2R; cbn; lra); lra).
        assert (c <= 1)%Q as C2 by (apply Rle_Qle; rewrite Q2R_1; lra).
        rewrite (decayed_real c (share us t) C1 C2 Bs).
        assert (Q2R (share us t) <= 1) as Bs1 by (rewrite <- Q2R_1; apply Qle_Rle; apply Bs).
        pose proof (weight_accuracy (Q2R c) T Dc Hc HTb x (Q2R (share us t)) (/ 12000000) ltac:(lra) Bx LT RS Bs1) as HA.
        destruct (steep_bounds (Q2R c) Dc Hc) as ((S0 & _) & _ & S1).
        assert (Rmin 1 (1 + Q2R c) * steep (Q2R c) <= 1 /\ 0 <= Rmin 1 (1 + Q2R c) <= 1) as (HM & HM0).
        { unfold steep in *. unfold Rmin. destruct (Rlt_dec (Q2R c) 0), (Rle_dec 1 (1 + Q2R c)); try lra.
          rewrite Rinv_r by lra. lra. }
        assert (/ 2 ^ 23 = / 8388608) as -> by (rewrite (pow_IZR 2 23); reflexivity).
        set (M := Rmin 1 (1 + Q2R c)) in *. set (S := steep (Q2R c)) in *.
        eapply Rle_trans; [apply Rmult_le_compat_r; [lra|exact HA]|]. unfold eps64.
        replace ((S * (/ 12000000 + 30 * / 9007199254740992) + 10 * / 9007199254740992) * M) with ((M * S) * (/ 12000000 + 30 * / 9007199254740992) + 10 * / 9007199254740992 * M) by ring.
        assert (0 <= M * S) by nra. nra.
    - intros t q t' q' Hin Hin' Hle. destruct (HIn _ _ Hin) as (k & x & Ht & Hx & E1). destruct (HIn _ _ Hin') as (k' & x' & Ht' & Hx' & E2).
      injection E1 as ->. injection E2 as ->. apply weight_le; auto.
      destruct (Nat.lt_trichotomy k k') as [L|[->|L]].
      + apply (sorted_nth _ _ (cums_sorted _ (like_double _ _ HLs) (us_nonneg s s' HLs)) k k' x x' Hx Hx' L).
      + assert (x = x') by congruence. lra.
      + pose proof (sorted_nth _ _ HS k' k t' t Ht' Ht L). lia.
  Qed.

  Lemma c111_succeeds : match decay_transform c (labelled samples) with
    | Ok _ => exists out, decay_transform_double (Q2R c) (labelled samples) = Ok out
    | Err e => decay_transform_double (Q2R c) (labelled samples) = Err e
    end.
  Proof.
    assert (c <= 1)%Q as C2 by (apply Rle_Qle; rewrite Q2R_1; lra).
    pose proof decay_double_table as HT. pose proof (proj2 (c21_error c (labelled samples) C2)) as HE. 
    destruct (average_uniqueness_transform (labelled samples)) as [av|e] eqn:EA.
    - destruct (HE (ex_intro _ av eq_refl)) as (out & ->). destruct HT as (us & ur & _ & _ & _ & _ & _ & _ & ->). eauto.
    - unfold decay_transform. apply Qle_bool_iff in C2. rewrite C2, EA. cbn [negb bind]. exact HT.
  Qed.
End Main.
