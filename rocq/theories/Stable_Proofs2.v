(** The features built from averages under a revision of the data. *)
From Coq Require Import Reals ZArith Lra Lia List String.
From Verif Require Import Prelude PreludeFacts Num Series DailyVol_Model Feat_Model Feat_Proofs Double_Bound_Spec Double_Vol_Proofs Stable_Spec Stable_Proofs.
Import ListNotations.
Local Open Scope R_scope.
Local Notation length := List.length.

Lemma zipw_rel {A B C A' B' C'} (RA : A -> A' -> Prop) (RB : B -> B' -> Prop) (RC : C -> C' -> Prop) (f : A -> B -> C) (f' : A' -> B' -> C') a a' b b' :
  (forall x x' y y', RA x x' -> RB y y' -> RC (f x y) (f' x' y')) -> Forall2 RA a a' -> Forall2 RB b b' -> Forall2 RC (zipw f a b) (zipw f' a' b').
Proof.
  intros H F. revert b b'. unfold zipw. induction F as [|x x' a a' Hx F IH]; intros b b' G; [constructor|]. destruct G as [|y y' b b' Hy G]; cbn; constructor; auto.
Qed.
Lemma sub_apart d e x x' y y' : related (apart d) x x' -> related (apart e) y y' -> related (apart (d + e)) (esub x y) (esub x' y').
Proof.
  destruct x, x'; cbn; try contradiction; destruct y, y'; cbn; try contradiction; auto. intros H1 H2. apply apart_iff in H1, H2. apply apart_iff. lra.
Qed.
Lemma difference_apart e fast slow c c' : 1 <= fast -> 1 <= slow -> revised e c c' ->
  Forall2 (related (apart (2 * e))) (zipw esub (ewm_mean fast c) (ewm_mean slow c)) (zipw esub (ewm_mean fast c') (ewm_mean slow c')).
Proof.
  intros Hf Hs F. eapply zipw_rel; [|apply (ewm_apart e fast c c' Hf F)|apply (ewm_apart e slow c c' Hs F)]. intros x x' y y' A B. replace (2 * e) with (e + e) by ring. now apply sub_apart.
Qed.
Lemma same_refl {A} (P : A -> Prop) (l : list A) : (forall x, In x l -> P x) -> Forall2 (fun x y => x = y /\ P x) l l.
Proof. induction l as [|x l IH]; intros H; constructor; [split; [reflexivity|apply H; now left]|]. apply IH. intros y Hy. apply H. now right. Qed.
Lemma imbalance_apart e fast slow b b' s s' v : 1 <= fast -> 1 <= slow -> revised e b b' -> revised e s s' -> (forall x, In x v -> exists a, x = Fin a /\ 0 <= a) ->
  Forall2 (related (apart (4 * e)))
    (zipw ediv (zipw esub (zipw esub (ewm_mean fast b) (ewm_mean fast s)) (zipw esub (ewm_mean slow b) (ewm_mean slow s))) (map (fun x => eadd x (Fin 1)) v))
    (zipw ediv (zipw esub (zipw esub (ewm_mean fast b') (ewm_mean fast s')) (zipw esub (ewm_mean slow b') (ewm_mean slow s'))) (map (fun x => eadd x (Fin 1)) v)).
Proof.
  intros Hf Hs Fb Fs Hv.
  assert (D : forall span, 1 <= span -> Forall2 (related (apart (e + e))) (zipw esub (ewm_mean span b) (ewm_mean span s)) (zipw esub (ewm_mean span b') (ewm_mean span s'))).
  { intros span H. eapply zipw_rel; [|apply (ewm_apart e span b b' H Fb)|apply (ewm_apart e span s s' H Fs)]. intros x x' y y' A B. now apply sub_apart. }
  eapply zipw_rel; [|eapply zipw_rel; [|apply (D fast Hf)|apply (D slow Hs)]|apply (same_refl (fun y => exists a, y = Fin a /\ 1 <= a))].
  - intros x x' y y' A (<- & a & -> & Ha). instantiate (1 := related (apart (4 * e))) in A. destruct x as [x| | |], x' as [x'| | |]; cbn [related] in A; try contradiction; [|exact I].
    unfold ediv. cbn [aeqb a0 Arith_R]. destruct (Req_EM_T a 0); [lra|]. cbn [related]. unfold adiv. cbn [amul ainv Arith_R]. unfold apart in *.
    rewrite <- Rmult_minus_distr_r, Rabs_mult, (Rabs_pos_eq (/ a)) by (apply Rlt_le, Rinv_0_lt_compat; lra). pose proof (Rabs_pos (x - x')).
    assert (/ a <= 1) by (rewrite <- Rinv_1; apply Rinv_le_contravar; lra). apply Rle_trans with (Rabs (x - x') * 1); [apply Rmult_le_compat_l; lra|lra].
  - intros x x' y y' A B. replace (4 * e) with (e + e + (e + e)) by ring. now apply sub_apart.
  - intros x Hx. apply in_map_iff in Hx as (y & <- & Hy). destruct (Hv y Hy) as (a & -> & Ha). exists (a + 1). split; [reflexivity|lra].
Qed.

(** Crossings. *)
Definition same_side (p q : ext R * ext R) : Prop :=
  eleb (fst p) (snd p) = eleb (fst q) (snd q) /\ eltb (fst p) (snd p) = eltb (fst q) (snd q) /\ eleb (snd p) (fst p) = eleb (snd q) (fst q) /\ eltb (snd p) (fst p) = eltb (snd q) (fst q).
Lemma combine_shift (a b : list (ext R)) : length a = length b -> combine (shift1 a) (shift1 b) = firstn (length a) ((NaN, NaN) :: combine a b).
Proof.
  intros L. unfold shift1. rewrite <- L. generalize (NaN : ext R) at 1 3. generalize (NaN : ext R). revert b L. induction a as [|x a IH]; intros [|y b] L z w; try discriminate; [reflexivity|]. injection L as L. cbn. f_equal. apply (IH b L y x).
Qed.
Lemma shift_same a b a' b' : length a = length b -> length a' = length b' -> length a = length a' -> Forall2 same_side (combine a b) (combine a' b') ->
  Forall2 same_side (combine (shift1 a) (shift1 b)) (combine (shift1 a') (shift1 b')).
Proof. intros L L' L2 F. rewrite !combine_shift by assumption. rewrite L2. apply Forall2_firstn. constructor; [repeat split; reflexivity|exact F]. Qed.
Lemma zipw_same {C} (g : ext R -> ext R -> C) a b a' b' : (forall p q, same_side p q -> g (fst p) (snd p) = g (fst q) (snd q)) -> Forall2 same_side (combine a b) (combine a' b') -> zipw g a b = zipw g a' b'.
Proof. intros H F. unfold zipw. induction F as [|p q l l' Hp F IH]; cbn; [reflexivity|]. f_equal; [now apply H|exact IH]. Qed.
Lemma cross_same idx a b a' b' : length a = length b -> length a' = length b' -> length a = length a' -> Forall2 same_side (combine a b) (combine a' b') ->
  up_cross_indices idx a b = up_cross_indices idx a' b' /\ down_cross_indices idx a b = down_cross_indices idx a' b'.
Proof.
  intros L L' L2 F. pose proof (shift_same a b a' b' L L' L2 F) as G. unfold up_cross_indices, down_cross_indices.
  rewrite (zipw_same eleb _ _ _ _ ltac:(intros p q (H1 & H2 & H3 & H4); assumption) G), (zipw_same (fun f s => eltb s f) _ _ _ _ ltac:(intros p q (H1 & H2 & H3 & H4); assumption) F).
  rewrite (zipw_same (fun f s => eleb s f) _ _ _ _ ltac:(intros p q (H1 & H2 & H3 & H4); assumption) G), (zipw_same eltb _ _ _ _ ltac:(intros p q (H1 & H2 & H3 & H4); assumption) F). split; reflexivity.
Qed.
Lemma lt_all (x y : R) : x < y -> eltb (Fin x) (Fin y) = true /\ eleb (Fin x) (Fin y) = true /\ eltb (Fin y) (Fin x) = false /\ eleb (Fin y) (Fin x) = false.
Proof.
  intros H. unfold eleb, eeqb, eltb. cbn [altb aeqb Arith_R]. destruct (Rlt_dec x y) as [_|N]; [|lra]. destruct (Rlt_dec y x) as [N|_]; [lra|]. destruct (Req_EM_T y x) as [N|_]; [lra|]. repeat split; reflexivity.
Qed.
Lemma sides_same e a b a' b' : Forall2 (related (apart e)) a a' -> Forall2 (related (apart e)) b b' -> (forall i x y, nth_error a i = Some (Fin x) -> nth_error b i = Some (Fin y) -> 2 * e < Rabs (x - y)) ->
  Forall2 same_side (combine a b) (combine a' b').
Proof.
  intros F. revert b b'. induction F as [|x x' a a' Hx F IH]; intros b b' G M; [constructor|]. destruct G as [|y y' b b' Hy G]; cbn [combine]; constructor.
  - pose proof (M 0%nat) as M0. cbn [nth_error] in M0. destruct x as [x| | |], x' as [x'| | |]; cbn [related] in Hx; try contradiction; destruct y as [y| | |], y' as [y'| | |]; cbn [related] in Hy; try contradiction; try (match goal with |- same_side (Fin _, Fin _) _ => fail 1 | _ => repeat split; reflexivity end).
    specialize (M0 x y eq_refl eq_refl). apply apart_iff in Hx, Hy. unfold Rabs in M0. unfold same_side. cbn [fst snd]. destruct (Rcase_abs (x - y)).
    + destruct (lt_all x y ltac:(lra)) as (-> & -> & -> & ->). destruct (lt_all x' y' ltac:(lra)) as (-> & -> & -> & ->). repeat split; reflexivity.
    + assert (y < x). { pose proof (Rle_trans _ _ _ (proj1 Hx) (proj2 Hx)). lra. } destruct (lt_all y x ltac:(lra)) as (-> & -> & -> & ->). destruct (lt_all y' x' ltac:(lra)) as (-> & -> & -> & ->). repeat split; reflexivity.
  - apply IH; [exact G|]. intros i. apply (M (S i)).
Qed.
Lemma rolling_len w agg c : length (rolling w agg c) = length c. Proof. unfold rolling. now rewrite map_length, seq_length. Qed.
Lemma crossover_same e fast slow fill name idx X X' c c' : f_index X = idx -> f_index X' = idx -> lookup name X = Some c -> lookup name X' = Some c' -> revised e c c' ->
  (forall i x y, nth_error (rolling fast agg_mean c) i = Some (Fin x) -> nth_error (rolling slow agg_mean c) i = Some (Fin y) -> 2 * e < Rabs (x - y)) ->
  ma_crossover fast slow fill name X = ma_crossover fast slow fill name X'.
Proof.
  intros I I' Hc Hc' F M. unfold ma_crossover, column. rewrite Hc, Hc', I, I'. cbn [bind].
  pose proof (rolling_related (apart e) e fast agg_mean c c' ltac:(intros; now apply mean_apart) F) as A. pose proof (rolling_related (apart e) e slow agg_mean c c' ltac:(intros; now apply mean_apart) F) as B.
  pose proof (sides_same e _ _ _ _ A B M) as S. set (fa := rolling fast agg_mean c) in *. set (sl := rolling slow agg_mean c) in *. set (fa' := rolling fast agg_mean c') in *. set (sl' := rolling slow agg_mean c') in *.
  assert (L1 : length fa = length sl) by (unfold fa, sl; now rewrite !rolling_len). assert (L2 : length fa' = length sl') by (unfold fa', sl'; now rewrite !rolling_len).
  assert (L3 : length fa = length fa') by (unfold fa, fa'; rewrite !rolling_len; apply (revised_length e c c' F)). clearbody fa sl fa' sl'.
  destruct (cross_same idx fa sl fa' sl' L1 L2 L3 S) as [E1 E2]. rewrite E1, E2. reflexivity.
Qed.
