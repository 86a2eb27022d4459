(** Uniqueness depends on the overlapping labels only, and not on the order of the rows. *)
From Coq Require Import QArith Lia Permutation.
From Verif Require Import Prelude PreludeFacts Series QSum QSumFacts Boot_Spec Boot_Model Boot_Proofs Boot_Proofs2 Weights_Model Weights_Spec Weights_Proofs Local_Spec.
Local Open Scope nat_scope.

Lemma incZ_filter (p : Z -> bool) l : increasingZ l -> increasingZ (filter p l).
Proof.
  unfold increasingZ. induction 1 as [|x l Hs IH Hx]; cbn [filter]; [constructor|]. destruct (p x); [|exact IH]. constructor; [exact IH|].
  rewrite Forall_forall in *. intros y Hy. apply filter_In in Hy. now apply Hx.
Qed.
Lemma NoDup_of_keys {V} (l : list (Z * V)) : NoDup (map fst l) -> NoDup l.
Proof. apply NoDup_map_inv. Qed.
Lemma alive_spec t l : alive t l = true <-> (fst l <= t <= snd l)%Z.
Proof. unfold alive. rewrite andb_true_iff, !Z.leb_le. reflexivity. Qed.

Lemma same_count samples samples' t l : NoDup samples -> NoDup samples' -> in_order samples -> in_order samples' ->
  alive t l = true -> same_around l samples samples' -> count (alive t) samples = count (alive t) samples'.
Proof.
  intros N N' O O' Ht H. unfold count. apply alive_spec in Ht.
  assert (G : forall l', alive t l' = true -> (In l' samples <-> In l' samples')).
  { intros l' Hl. apply alive_spec in Hl. apply H. unfold overlapping. lia. }
  apply Nat.le_antisymm; (apply NoDup_incl_length; [now apply NoDup_filter|]; intros l' Hl; apply filter_In in Hl; destruct Hl as [Hl Ha]; apply filter_In; split; [|exact Ha]; now apply G).
Qed.

(** * Uniqueness *)
Theorem uniqueness_local samples samples' out out' s e u u' : in_order samples -> in_order samples' ->
  average_uniqueness_transform (labelled samples) = Ok out -> average_uniqueness_transform (labelled samples') = Ok out' ->
  In (s, e) samples -> same_around (s, e) samples samples' -> In (s, Some u) out -> In (s, Some u') out' -> (u == u')%Q.
Proof.
  intros O O' E E' Hin Hsame Hu Hu'.
  destruct (c61 samples out E) as (F1 & N1 & times & I1 & T1 & V1). destruct (c61 samples' out' E') as (F2 & N2 & times' & I2 & T2 & V2).
  pose proof (O s e Hin) as Hse. assert (Hin' : In (s, e) samples') by (apply Hsame; [unfold overlapping; cbn; lia|exact Hin]).
  destruct (In_nth_error _ _ Hin) as (j & Hj). destruct (In_nth_error _ _ Hin') as (j' & Hj').
  destruct (V1 j s e Hj Hse) as (w & Hw & _ & Ew). destruct (V2 j' s e Hj' Hse) as (w' & Hw' & _ & Ew').
  assert (U1 : forall (o : list (Z * option Q)) x y, NoDup (map fst o) -> In (s, x) o -> In (s, y) o -> x = y).
  { clear. intros o x y N Hx Hy. induction o as [|[a b] o IH]; [destruct Hx|]. cbn in N. inversion N as [|? ? Na No]; subst. destruct Hx as [Hx|Hx], Hy as [Hy|Hy].
    - congruence.
    - injection Hx as -> ->. apply (in_map fst) in Hy. contradiction.
    - injection Hy as -> ->. apply (in_map fst) in Hx. contradiction.
    - now apply IH. }
  assert (E1 : Some u = Some w) by (apply (U1 out); [now rewrite F1|exact Hu|apply (nth_error_In _ _ Hw)]).
  assert (E2 : Some u' = Some w') by (apply (U1 out'); [now rewrite F2|exact Hu'|apply (nth_error_In _ _ Hw')]).
  injection E1 as ->. injection E2 as ->. rewrite Ew, Ew'.
  assert (Et : filter (fun t => alive t (s, e)) times = filter (fun t => alive t (s, e)) times').
  { apply increasingZ_ext; [now apply incZ_filter|now apply incZ_filter|]. intros t. rewrite !filter_In, T1, T2.
    assert (G : forall a b, alive t (s, e) = true -> (t = a \/ t = b) -> (a <= b)%Z -> overlapping (s, e) (a, b)) by (intros a b Ha Hb Hab; apply alive_spec in Ha; unfold overlapping; cbn in *; lia).
    split; intros ((a & b & Hab & Hb) & Ha); (split; [exists a, b; split; [|exact Hb]|exact Ha]); (apply Hsame; [apply (G a b Ha Hb)|exact Hab]); [now apply O|now apply O']. }
  rewrite Et. apply qmean_map_ext. intros t Ht. apply filter_In in Ht. destruct Ht as [_ Ht].
  rewrite (same_count samples samples' t (s, e)); try assumption; [reflexivity|now apply NoDup_of_keys|now apply NoDup_of_keys].
Qed.

Lemma perm_same_around l samples samples' : Permutation samples samples' -> same_around l samples samples'.
Proof. intros H l' _. split; apply Permutation_in; [exact H|now symmetry]. Qed.

(** * The order of the rows *)
Lemma row_time_perm samples samples' bars bars' t : Permutation samples samples' -> Permutation bars bars' -> row_time samples bars t -> row_time samples' bars' t.
Proof.
  intros H Hb [(s & e & Hi & Ht)|(Ht & (s & e & Hi & Hs) & (s' & e' & Hi' & He))].
  - left. exists s, e. split; [now apply (Permutation_in _ H)|exact Ht].
  - right. split; [now apply (Permutation_in _ Hb)|]. split; [exists s, e|exists s', e']; (split; [now apply (Permutation_in _ H)|assumption]).
Qed.
Lemma ind_matrix_perm_ok samples samples' bars bars' mi : Permutation samples samples' -> Permutation bars bars' ->
  get_ind_matrix (complete samples) bars = Ok mi -> exists m', get_ind_matrix (complete samples') bars' = Ok (m', snd mi).
Proof.
  intros H Hb E. destruct mi as [m idx]. assert (Hne : samples <> []) by (intros ->; discriminate).
  assert (Hne' : samples' <> []) by (intros ->; symmetry in H; now apply Permutation_nil in H).
  destruct (c14_accept samples bars Hne) as [A _]. destruct (c14_accept samples' bars' Hne') as [A' _].
  assert (X : exists m' idx', get_ind_matrix (complete samples') bars' = Ok (m', idx')).
  { apply A'. destruct (proj1 A (ex_intro _ m (ex_intro _ idx E))) as [(t & s & e & H1 & H2 & H3) (t' & s' & e' & H1' & H2' & H3')].
    split; [exists t, s, e|exists t', s', e']; (split; [eapply row_time_perm; eassumption|split; [now apply (Permutation_in _ H)|assumption]]). }
  destruct X as (m' & idx' & E'). exists m'. rewrite E'. do 2 f_equal. cbn [snd].
  destruct (c13 _ _ _ _ E) as (_ & _ & I & T & _). destruct (c13 _ _ _ _ E') as (_ & _ & I' & T' & _).
  apply increasingZ_ext; [exact I'|exact I|]. intros t. rewrite T, T'. split; apply row_time_perm; try assumption; now symmetry.
Qed.

Lemma labelled_complete samples : map (fun r : Z * option Z => (Some (fst r), snd r)) (labelled samples) = complete samples.
Proof. unfold labelled, complete. rewrite map_map. reflexivity. Qed.
Lemma labelled_fst samples : map fst (labelled samples) = map fst samples.
Proof. unfold labelled. rewrite map_map. reflexivity. Qed.
Lemma labelled_ends samples : existsb (fun r : Z * option Z => match snd r with None => true | Some _ => false end) (labelled samples) = false.
Proof. induction samples; auto. Qed.

Lemma uniqueness_perm_ok samples samples' : Permutation samples samples' ->
  is_ok (average_uniqueness_transform (labelled samples)) = true -> is_ok (average_uniqueness_transform (labelled samples')) = true.
Proof.
  intros H. unfold average_uniqueness_transform. rewrite !labelled_ends, !labelled_fst, !labelled_complete.
  assert (Hk : Permutation (map fst samples) (map fst samples')) by (now apply Permutation_map).
  destruct (has_dup (map fst samples)) eqn:D; [discriminate|]. apply has_dup_NoDup in D. assert (D' : has_dup (map fst samples') = false) by (apply has_dup_NoDup; now apply (Permutation_NoDup Hk)). rewrite D'.
  destruct (get_ind_matrix (complete samples) (map fst samples)) as [mi|] eqn:E; [|discriminate]. intros _.
  destruct (ind_matrix_perm_ok _ _ _ _ _ H Hk E) as (m' & ->). reflexivity.
Qed.

Theorem uniqueness_perm samples samples' : Permutation samples samples' -> in_order samples ->
  is_ok (average_uniqueness_transform (labelled samples)) = is_ok (average_uniqueness_transform (labelled samples')) /\
  forall out out', average_uniqueness_transform (labelled samples) = Ok out -> average_uniqueness_transform (labelled samples') = Ok out' ->
  forall s u, In (s, u) out -> exists q q', u = Some q /\ In (s, Some q') out' /\ (q == q')%Q.
Proof.
  intros H O. assert (O' : in_order samples') by (intros s e Hi; apply O; apply (Permutation_in _ (Permutation_sym H)), Hi). split.
  - apply eq_true_iff_eq. split; apply uniqueness_perm_ok; [exact H|now symmetry].
  - intros out out' E E' s u Hu. destruct (c61 _ _ E) as (F1 & N1 & times & _ & _ & V1). destruct (c61 _ _ E') as (F2 & N2 & times' & _ & _ & V2).
    destruct (In_nth_error _ _ Hu) as (j & Hj).
    assert (Hs : nth_error (map fst samples) j = Some s) by (rewrite <- F1, nth_error_map, Hj; reflexivity).
    rewrite nth_error_map in Hs. destruct (nth_error samples j) as [[s0 e]|] eqn:Es; [|discriminate]. cbn in Hs. injection Hs as ->.
    pose proof (nth_error_In _ _ Es) as Hi. destruct (V1 j s e Es (O _ _ Hi)) as (q & Hq & _). rewrite Hj in Hq. injection Hq as ->.
    pose proof (Permutation_in _ H Hi) as Hi'. destruct (In_nth_error _ _ Hi') as (j' & Ej'). destruct (V2 j' s e Ej' (O' _ _ Hi')) as (q' & Hq' & _).
    exists q, q'. split; [reflexivity|]. pose proof (nth_error_In _ _ Hq') as Hin'. split; [exact Hin'|].
    now apply (uniqueness_local samples samples' out out' s e q q' O O' E E' Hi (perm_same_around _ _ _ H)).
Qed.

(** * Time decay *)
Lemma decayed_ext c x y : (x == y)%Q -> (decayed c x == decayed c y)%Q.
Proof.
  intros H. unfold decayed. destruct (Qle_bool 0 c); [now rewrite H|].
  assert (E : Qle_bool x (- c) = Qle_bool y (- c)) by (apply eq_true_iff_eq; rewrite !Qle_bool_iff, H; reflexivity). rewrite E.
  destruct (Qle_bool y (- c)); [reflexivity|now rewrite H].
Qed.
Lemma qsum_values (U : Z -> Q) (us : list (Z * Q)) : (forall t u, In (t, u) us -> (u == U t)%Q) -> (qsum (map snd us) == qsum (map U (map fst us)))%Q.
Proof.
  induction us as [|[t u] us IH]; intros H; [reflexivity|]. cbn [map fst snd qsum]. change (u + qsum (map snd us) == U t + qsum (map U (map fst us)))%Q.
  rewrite (H t u (or_introl eq_refl)), IH; [reflexivity|]. intros t' u' Hi. apply H. now right.
Qed.
Lemma share_perm us us' t : Permutation (map fst us) (map fst us') -> NoDup (map fst us) ->
  (forall s u, In (s, u) us -> exists u', In (s, u') us' /\ (u == u')%Q) -> (share us t == share us' t)%Q.
Proof.
  intros H N Hv. set (U := fun s => match find (fun r : Z * Q => Z.eqb (fst r) s) us' with Some r => snd r | None => 0%Q end).
  assert (N' : NoDup (map fst us')) by (now apply (Permutation_NoDup H)).
  assert (HU' : forall s u, In (s, u) us' -> (u == U s)%Q).
  { intros s u Hi. unfold U. clear -N' Hi. induction us' as [|[a b] us' IH]; [destruct Hi|]. cbn in N'. inversion N' as [|? ? Na No]; subst. cbn [find fst]. destruct (Z.eqb_spec a s) as [->|Hn].
    - destruct Hi as [Hi|Hi]; [now injection Hi as ->|]. apply (in_map fst) in Hi. contradiction.
    - destruct Hi as [Hi|Hi]; [injection Hi; congruence|]. now apply IH. }
  assert (HU : forall s u, In (s, u) us -> (u == U s)%Q).
  { intros s u Hi. destruct (Hv s u Hi) as (u' & Hi' & ->). now apply HU'. }
  assert (G : forall p : Z -> bool, (qsum (map snd (filter (fun r => p (fst r)) us)) == qsum (map snd (filter (fun r => p (fst r)) us')))%Q).
  { intros p. rewrite (qsum_values U) by (intros s u Hi; apply filter_In in Hi; now apply HU). rewrite (qsum_values U) by (intros s u Hi; apply filter_In in Hi; now apply HU').
    apply qsum_perm, Permutation_map.
    assert (Ef : forall l : list (Z * Q), map fst (filter (fun r => p (fst r)) l) = filter p (map fst l)) by (induction l as [|[a b] l IH]; [reflexivity|]; cbn; destruct (p a); cbn; now rewrite IH).
    rewrite !Ef. clear -H. induction H as [|x l l' _ IH|x y l|l l' l'' _ IH1 _ IH2]; cbn; [constructor| | |etransitivity; eassumption].
    - destruct (p x); [now constructor|exact IH].
    - destruct (p x), (p y); try reflexivity. constructor. }
  unfold share. rewrite (G (fun a => (a <=? t)%Z)). pose proof (G (fun _ => true)) as G'.
  assert (Et : forall l : list (Z * Q), filter (fun _ => true) l = l) by (induction l; cbn; congruence). rewrite !Et in G'. now rewrite G'.
Qed.

Theorem decay_perm c samples samples' : (-1 < c)%Q -> Permutation samples samples' -> in_order samples ->
  is_ok (decay_transform c (labelled samples)) = is_ok (decay_transform c (labelled samples')) /\
  forall out out', decay_transform c (labelled samples) = Ok out -> decay_transform c (labelled samples') = Ok out' ->
  Forall2 (fun r r' => fst r = fst r' /\ exists q q', snd r = Fin q /\ snd r' = Fin q' /\ (q == q')%Q) out out'.
Proof.
  intros Hc H O. assert (O' : in_order samples') by (intros s e Hi; apply O; apply (Permutation_in _ (Permutation_sym H)), Hi).
  destruct (uniqueness_perm samples samples' H O) as [HO HV]. split.
  - destruct (Qlt_le_dec 1 c) as [Hl|Hl]; [now rewrite !c21_too_large|].
    apply eq_true_iff_eq. assert (G : forall X, is_ok (decay_transform c X) = true <-> is_ok (average_uniqueness_transform X) = true).
    { intros X. destruct (c21_error c X Hl) as [G1 G2]. split; intros Hx.
      - destruct (decay_transform c X) eqn:E; [|discriminate]. destruct G1 as [av ->]; [eauto|reflexivity].
      - destruct (average_uniqueness_transform X) eqn:E; [|discriminate]. destruct G2 as [o ->]; [eauto|reflexivity]. }
    rewrite !G, HO. reflexivity.
  - intros out out' E E'. destruct (c21_weights c samples out Hc O E) as (us & Eu & I & P & W). destruct (c21_weights c samples' out' Hc O' E') as (us' & Eu' & I' & P' & W').
    assert (Hf : map fst out = map fst out').
    { apply increasingZ_ext; [exact I|exact I'|]. intros t. split; intros Ht.
      - apply (Permutation_in _ (Permutation_sym P')). apply (Permutation_in _ (Permutation_map fst H)). now apply (Permutation_in _ P).
      - apply (Permutation_in _ (Permutation_sym P)). apply (Permutation_in _ (Permutation_map fst (Permutation_sym H))). now apply (Permutation_in _ P'). }
    assert (Hs : forall t, (share us t == share us' t)%Q).
    { intros t. destruct (c61 _ _ Eu) as (F1 & N1 & _). destruct (c61 _ _ Eu') as (F2 & N2 & _). rewrite map_map in F1, F2. cbn [fst] in F1, F2. change (map fst us = map fst samples) in F1. change (map fst us' = map fst samples') in F2.
      apply share_perm.
      - rewrite F1, F2. now apply Permutation_map.
      - now rewrite F1.
      - intros s u Hi. destruct (HV _ _ Eu Eu' s (Some u)) as (q & q' & Eq & Hi' & Hq).
        + apply in_map_iff. now exists (s, u).
        + injection Eq as ->. apply in_map_iff in Hi'. destruct Hi' as ([s2 u2] & E2 & Hi2). cbn in E2. injection E2 as -> ->. exists q'. now split. }
    clear - W W' Hf Hs. revert out' Hf W'. induction out as [|[t w] out IH]; intros [|[t' w'] out'] Hf W'; try discriminate; [constructor|].
    cbn in Hf. injection Hf as -> Hf. constructor.
    + cbn [fst snd]. split; [reflexivity|]. destruct (W t' w (or_introl eq_refl)) as (q & -> & Hq). destruct (W' t' w' (or_introl eq_refl)) as (q' & -> & Hq').
      exists q, q'. split; [reflexivity|]. split; [reflexivity|]. rewrite Hq, Hq'. now apply decayed_ext.
    + apply IH; [intros t w2 Hi; apply W; now right|exact Hf|intros t w2 Hi; apply W'; now right].
Qed.
