(** Proofs about the cross-validation model. *)
From Coq Require Import Sorting.Sorted Permutation.
From Verif Require Import PreludeFacts CV_Spec CV_Model.
From Coq Require Import ZifyBool ZifyNat.
Local Ltac Zify.zify_post_hook ::= Z.div_mod_to_equations.

(** * Group bounds *)

(** Start of group [g] when [n] samples are cut into [k] groups. *)
Definition gstart (n k g : nat) : nat := g * (n / k) + Nat.min g (n mod k).

Fixpoint chain (a : nat) (sizes : list nat) : list (nat * nat) :=
  match sizes with
  | [] => []
  | s :: r => (a, a + s) :: chain (a + s) r
  end.

Lemma mapM_fold_bound_cut sizes : forall a n, list_sum sizes = n -> Forall (fun s => 1 <= s) sizes ->
  mapM fold_bound (cut sizes (seq a n)) = Ok (chain a sizes).
Proof.
  induction sizes as [|s r IH]; intros a n Hs Hf; simpl; [reflexivity|].
  inversion Hf as [|? ? H1 Hr]; subst. simpl.
  rewrite firstn_seq, skipn_seq.
  replace (Nat.min s (s + list_sum r)) with s by lia.
  replace (s + list_sum r - s) with (list_sum r) by lia.
  rewrite (IH (a + s) (list_sum r) eq_refl Hr).
  destruct s as [|s]; [lia|]. 
  cbn [seq fold_bound bind].
  replace (last (a :: seq (S a) s) a) with (a + s).
  2:{ clear. change (a :: seq (S a) s) with (seq a (S s)). rewrite seq_S. now rewrite last_last. }
  do 3 f_equal. lia.
Qed.

Lemma mapM_fold_bound_empty sizes : forall a n, list_sum sizes = n -> In 0 sizes ->
  Forall (fun s => 1 <= s) sizes \/ mapM fold_bound (cut sizes (seq a n)) = Err IndexError.
Proof.
  induction sizes as [|s r IH]; intros a n Hs Hin; [destruct Hin|].
  right. simpl in *. subst n. rewrite firstn_seq, skipn_seq.
  replace (Nat.min s (s + list_sum r)) with s by lia.
  replace (s + list_sum r - s) with (list_sum r) by lia.
  destruct s as [|s]; [reflexivity|].
  destruct Hin as [H|Hin]; [discriminate|].
  destruct (IH (a + S s) _ eq_refl Hin) as [Hf|He].
  - rewrite Forall_forall in Hf. specialize (Hf _ Hin). lia.
  - rewrite He. reflexivity.
Qed.

Lemma list_sum_repeat x n : list_sum (repeat x n) = n * x.
Proof. induction n; simpl; lia. Qed.

Lemma section_sizes_sum n k : k <> 0 -> list_sum (section_sizes n k) = n.
Proof.
  intros Hk. unfold section_sizes. rewrite list_sum_app, !list_sum_repeat.
  pose proof (Nat.div_mod_eq n k). pose proof (Nat.mod_upper_bound n k Hk). nia.
Qed.

Lemma section_sizes_length n k : k <> 0 -> length (section_sizes n k) = k.
Proof.
  intros Hk. unfold section_sizes. rewrite app_length, !repeat_length.
  pose proof (Nat.mod_upper_bound n k Hk). lia.
Qed.

Lemma section_sizes_pos n k : k <> 0 -> k <= n -> Forall (fun s => 1 <= s) (section_sizes n k).
Proof.
  intros Hk Hn. unfold section_sizes. rewrite Forall_app, !Forall_forall.
  assert (1 <= n / k) by (apply Nat.div_le_lower_bound; lia).
  split; intros x Hx; apply repeat_spec in Hx; subst; lia.
Qed.

Lemma section_sizes_zero n k : n < k -> In 0 (section_sizes n k).
Proof.
  intros Hn. unfold section_sizes. rewrite Nat.div_small, Nat.mod_small by lia.
  apply in_or_app. right. replace (k - n) with (S (k - n - 1)) by lia. left. reflexivity.
Qed.

Lemma section_sizes_prefix n k g : k <> 0 -> g <= k ->
  list_sum (firstn g (section_sizes n k)) = gstart n k g.
Proof.
  intros Hk Hg. unfold section_sizes, gstart. rewrite firstn_app, repeat_length, list_sum_app.
  pose proof (Nat.mod_upper_bound n k Hk) as Hm.
  assert (forall a b (x : nat), firstn a (repeat x b) = repeat x (Nat.min a b)) as Hfr.
  { induction a as [|a IH]; intros b x; simpl; [reflexivity|]. destruct b; simpl; [reflexivity|]. now rewrite IH. }
  rewrite !Hfr, !list_sum_repeat.
  destruct (Nat.le_gt_cases g (n mod k)).
  - replace (Nat.min g (n mod k)) with g by lia. replace (g - n mod k) with 0 by lia. simpl. lia.
  - replace (Nat.min g (n mod k)) with (n mod k) by lia.
    replace (Nat.min (g - n mod k) (k - n mod k)) with (g - n mod k) by lia.
    replace g with (n mod k + (g - n mod k)) at 3 by lia. nia.
Qed.

Lemma chain_nth sizes : forall a g, g < length sizes ->
  nth_error (chain a sizes) g =
  Some (a + list_sum (firstn g sizes), a + list_sum (firstn (S g) sizes)).
Proof.
  induction sizes as [|s r IH]; intros a g Hg; simpl in Hg; [lia|].
  destruct g as [|g]; [simpl; repeat f_equal; lia|].
  cbn [chain nth_error]. rewrite IH by lia. cbn [firstn list_sum fold_right].
  f_equal. f_equal; simpl; fold (list_sum (firstn g r)); lia.
Qed.

Lemma chain_length sizes : forall a, length (chain a sizes) = length sizes.
Proof. induction sizes; intros; simpl; auto. Qed.

Definition gbound (n k g : nat) : nat * nat := (gstart n k g, gstart n k (S g)).

Lemma nth_error_ext {A} (l1 : list A) : forall l2, (forall i, nth_error l1 i = nth_error l2 i) -> l1 = l2.
Proof.
  induction l1 as [|a l1 IH]; intros l2 H.
  - destruct l2; [reflexivity|]. specialize (H 0). discriminate.
  - destruct l2 as [|b l2]; [specialize (H 0); discriminate|].
    pose proof (H 0) as H0. simpl in H0. inversion H0. f_equal. apply IH. intros i. apply (H (S i)).
Qed.

Lemma chain_sections n k : k <> 0 -> chain 0 (section_sizes n k) = map (gbound n k) (seq 0 k).
Proof.
  intros Hk. apply nth_error_ext. intros i.
  destruct (Nat.lt_ge_cases i k) as [Hi|Hi].
  - rewrite chain_nth by (rewrite section_sizes_length; lia).
    rewrite !section_sizes_prefix by lia.
    symmetry. apply (map_nth_error (gbound n k)). apply nth_error_seq. lia.
  - rewrite (proj2 (nth_error_None _ _)) by (rewrite chain_length, section_sizes_length; lia).
    symmetry. apply nth_error_None. rewrite map_length, seq_length. exact Hi.
Qed.

Lemma fold_bounds_ok c n : n_groups c <> 0 -> n_groups c <= n ->
  fold_bounds c n = Ok (map (gbound n (n_groups c)) (seq 0 (n_groups c))).
Proof.
  intros Hk Hn. unfold fold_bounds, array_split, indices. rewrite seq_length.
  destruct (Nat.eqb_spec (n_groups c) 0) as [?|_]; [lia|]. simpl.
  rewrite mapM_fold_bound_cut; [|apply section_sizes_sum; lia|apply section_sizes_pos; lia].
  now rewrite chain_sections.
Qed.

Lemma fold_bounds_small c n : n < n_groups c -> fold_bounds c n = Err IndexError.
Proof.
  intros Hn. unfold fold_bounds, array_split, indices. rewrite seq_length.
  destruct (Nat.eqb_spec (n_groups c) 0) as [?|_]; [lia|]. simpl.
  destruct (mapM_fold_bound_empty (section_sizes n (n_groups c)) 0 n) as [Hf|He]; auto.
  - apply section_sizes_sum; lia.
  - apply section_sizes_zero; lia.
  - exfalso. rewrite Forall_forall in Hf. specialize (Hf 0 (section_sizes_zero _ _ Hn)). lia.
Qed.

Lemma gstart_0 n k : gstart n k 0 = 0.
Proof. reflexivity. Qed.
Lemma gstart_k n k : k <> 0 -> gstart n k k = n.
Proof.
  intros Hk. unfold gstart. pose proof (Nat.mod_upper_bound n k Hk). pose proof (Nat.div_mod_eq n k). nia.
Qed.
Lemma gstart_step n k g : k <> 0 -> k <= n -> gstart n k g < gstart n k (S g).
Proof.
  intros Hk Hn. unfold gstart. assert (1 <= n / k) by (apply Nat.div_le_lower_bound; lia). nia.
Qed.
Lemma gstart_mono n k g g' : k <> 0 -> k <= n -> g <= g' -> gstart n k g <= gstart n k g'.
Proof.
  intros Hk Hn H. induction H as [|g' H IH]; [lia|]. pose proof (gstart_step n k g' Hk Hn). lia.
Qed.
Lemma gstart_lt n k g g' : k <> 0 -> k <= n -> g < g' -> gstart n k g < gstart n k g'.
Proof.
  intros Hk Hn H. pose proof (gstart_step n k g Hk Hn). pose proof (gstart_mono n k (S g) g' Hk Hn H). lia.
Qed.
Lemma gstart_width n k g : gstart n k (S g) - gstart n k g <= S (n / k) /\ n / k <= gstart n k (S g) - gstart n k g.
Proof. unfold gstart. nia. Qed.

(** The group a sample belongs to. *)
Lemma group_exists n k i : k <> 0 -> k <= n -> i < n ->
  exists g, g < k /\ gstart n k g <= i < gstart n k (S g).
Proof.
  intros Hk Hn Hi.
  assert (forall m, m <= k -> i < gstart n k m -> exists g, g < m /\ gstart n k g <= i < gstart n k (S g)) as H.
  { induction m as [|m IH]; intros Hm Hlt; [rewrite gstart_0 in Hlt; lia|].
    destruct (Nat.lt_ge_cases i (gstart n k m)) as [H|H].
    - destruct (IH ltac:(lia) H) as (g & Hg & Hb). exists g. split; [lia|exact Hb].
    - exists m. split; [lia|]. lia. }
  apply H; [lia|]. rewrite gstart_k; lia.
Qed.
Lemma group_unique n k i g g' : k <> 0 -> k <= n ->
  gstart n k g <= i < gstart n k (S g) -> gstart n k g' <= i < gstart n k (S g') -> g = g'.
Proof.
  intros Hk Hn H H'. destruct (Nat.lt_trichotomy g g') as [Hl|[He|Hl]]; [|exact He|].
  - pose proof (gstart_mono n k (S g) g' Hk Hn Hl). lia.
  - pose proof (gstart_mono n k (S g') g Hk Hn Hl). lia.
Qed.

Lemma nth_error_gbounds n k j b :
  nth_error (map (gbound n k) (seq 0 k)) j = Some b <-> j < k /\ b = gbound n k j.
Proof.
  split.
  - intros H. assert (j < k) as Hj.
    { assert (nth_error (map (gbound n k) (seq 0 k)) j <> None) as Hn by congruence.
      apply nth_error_Some in Hn. now rewrite map_length, seq_length in Hn. }
    split; [exact Hj|]. rewrite (map_nth_error _ _ _ (proj2 (nth_error_seq j 0 k j) (conj Hj eq_refl))) in H.
    congruence.
  - intros [Hj ->]. apply map_nth_error. apply nth_error_seq. lia.
Qed.

Lemma gbounds_partition n k : k <> 0 -> k <= n ->
  near_equal_partition n k (map (gbound n k) (seq 0 k)).
Proof.
  intros Hk Hn. unfold near_equal_partition. repeat split.
  - now rewrite map_length, seq_length.
  - apply in_map_iff in H. destruct H as (g & Hg & Hin). inversion Hg. apply gstart_step; lia.
  - apply in_map_iff in H. destruct H as (g & Hg & Hin). inversion Hg. apply in_seq in Hin.
    rewrite <- (gstart_k n k Hk) at 2. apply gstart_mono; lia.
  - intros s e H. apply nth_error_gbounds in H. destruct H as [_ H]. inversion H. apply gstart_0.
  - intros s e H. apply nth_error_gbounds in H. destruct H as [_ H]. inversion H.
    replace (S (k - 1)) with k by lia. now apply gstart_k.
  - intros j s e s' e' H H'. apply nth_error_gbounds in H, H'. destruct H as [_ H], H' as [_ H'].
    inversion H; inversion H'. reflexivity.
  - intros i Hi. destruct (group_exists n k i Hk Hn Hi) as (g & Hg & Hb).
    exists g. split.
    + exists (gstart n k g), (gstart n k (S g)). split; [apply nth_error_gbounds; split; [lia|reflexivity]|exact Hb].
    + intros g' (s & e & H & Hin). apply nth_error_gbounds in H. destruct H as [_ H]. inversion H; subst.
      eapply group_unique; eauto.
  - intros s e s' e' H H'. apply in_map_iff in H, H'. destruct H as (g & Hg & _), H' as (g' & Hg' & _).
    inversion Hg; inversion Hg'. pose proof (gstart_width n k g). pose proof (gstart_width n k g'). lia.
Qed.

(** * Combinations *)

Lemma combinations_map {A B} (f : A -> B) k l : combinations k (map f l) = map (map f) (combinations k l).
Proof.
  revert k. induction l as [|x l IH]; intros k; destruct k as [|k]; simpl; auto.
  rewrite map_app, !map_map, !IH, map_map. reflexivity.
Qed.

Lemma combinations_length {A} k (l : list A) : length (combinations k l) = choose (length l) k.
Proof.
  revert k. induction l as [|x l IH]; intros k; destruct k as [|k]; simpl; auto.
  rewrite app_length, map_length, !IH. reflexivity.
Qed.

Lemma combinations_elem {A} k (l : list A) G : In G (combinations k l) ->
  length G = k /\ (forall x, In x G -> In x l).
Proof.
  revert k G. induction l as [|a l IH]; intros k G H; destruct k as [|k]; simpl in H.
  - destruct H as [<-|[]]. simpl. auto with datatypes.
  - destruct H.
  - destruct H as [<-|[]]. simpl. tauto.
  - apply in_app_or in H. destruct H as [H|H].
    + apply in_map_iff in H. destruct H as (G' & <- & HG'). apply IH in HG'. destruct HG' as [Hl Hi].
      simpl. split; [lia|]. intros x [->|Hx]; auto.
    + apply IH in H. destruct H as [Hl Hi]. split; [exact Hl|]. intros x Hx. right. auto.
Qed.

Lemma combinations_sorted {A} (R : A -> A -> Prop) k (l : list A) G :
  StronglySorted R l -> In G (combinations k l) -> StronglySorted R G.
Proof.
  revert k G. induction l as [|a l IH]; intros k G Hs H; destruct k as [|k]; simpl in H.
  - destruct H as [<-|[]]. constructor.
  - destruct H.
  - destruct H as [<-|[]]. constructor.
  - inversion Hs as [|? ? Hs' Hf]; subst. apply in_app_or in H. destruct H as [H|H].
    + apply in_map_iff in H. destruct H as (G' & <- & HG'). constructor; [eapply IH; eauto|].
      rewrite Forall_forall in *. intros x Hx. apply Hf. eapply combinations_elem; eauto.
    + eapply IH; eauto.
Qed.

Lemma combinations_complete k (l : list nat) G : increasing l -> increasing G -> length G = k ->
  (forall x, In x G -> In x l) -> In G (combinations k l).
Proof.
  revert k G. induction l as [|a l IH]; intros k G Hl HG Hk Hin.
  - destruct G as [|x G]; [|exfalso; apply (Hin x); now left]. simpl in Hk. subst. simpl. auto.
  - destruct G as [|x G]; simpl in Hk; subst; simpl; [auto|].
    inversion Hl as [|? ? Hl' Hlf]; subst. inversion HG as [|? ? HG' HGf]; subst.
    rewrite Forall_forall in Hlf, HGf. apply in_or_app.
    destruct (Hin x (or_introl eq_refl)) as [->|Hx].
    + left. apply in_map. apply IH; auto. intros y Hy.
      destruct (Hin y (or_intror Hy)) as [->|?]; [|assumption]. exfalso. specialize (HGf y Hy). lia.
    + right. apply (IH (S (length G)) (x :: G)); auto.
      intros y [<-|Hy]; [exact Hx|]. destruct (Hin y (or_intror Hy)) as [->|?]; [|assumption].
      exfalso. specialize (HGf y Hy). specialize (Hlf x Hx). lia.
Qed.

Lemma combinations_NoDup {A} k (l : list A) : NoDup l -> NoDup (combinations k l).
Proof.
  revert k. induction l as [|a l IH]; intros k Hl; destruct k as [|k]; simpl.
  - repeat constructor; auto.
  - constructor.
  - repeat constructor; auto.
  - inversion Hl as [|? ? Hn Hl']; subst. apply NoDup_app_iff. split; [|split].
    + apply FinFun.Injective_map_NoDup; [intros x y H; inversion H; reflexivity|]. apply IH, Hl'.
    + apply IH, Hl'.
    + intros G H1 H2. apply in_map_iff in H1. destruct H1 as (G' & <- & _).
      apply combinations_elem in H2. apply Hn. apply (proj2 H2). now left.
Qed.

Lemma combinations_small {A} k (l : list A) : length l < k -> combinations k l = [].
Proof.
  revert k. induction l as [|a l IH]; intros k H; destruct k as [|k]; simpl in *; try lia; auto.
  rewrite !IH by lia. reflexivity.
Qed.

(** The last combination consists of the last k elements. *)
Lemma combinations_last {A} k (l : list A) : k <= length l ->
  exists r, combinations k l = r ++ [skipn (length l - k) l].
Proof.
  revert k. induction l as [|a l IH]; intros k Hk; destruct k as [|k].
  - exists []. reflexivity.
  - simpl in Hk. lia.
  - exists []. simpl. now rewrite skipn_all.
  - cbn [combinations length]. destruct (Nat.eq_dec (length l) k) as [He|He].
    + rewrite (combinations_small (S k) l) by lia. rewrite app_nil_r.
      destruct (IH k ltac:(lia)) as (r & Hr). rewrite Hr, map_app. exists (map (cons a) r).
      replace (S (length l) - S k) with 0 by lia. replace (length l - k) with 0 by lia. reflexivity.
    + simpl in Hk. destruct (IH (S k) ltac:(lia)) as (r & Hr). rewrite Hr.
      exists (map (cons a) (combinations k l) ++ r). rewrite <- app_assoc. do 3 f_equal.
      replace (S (length l) - S k) with (S (length l - S k)) by lia. reflexivity.
Qed.

Lemma filter_app_len {A} (f : A -> bool) l1 l2 : length (filter f (l1 ++ l2)) = length (filter f l1) + length (filter f l2).
Proof. now rewrite filter_app, app_length. Qed.

Lemma filter_map_len {A B} (f : B -> bool) (g : A -> B) l :
  length (filter f (map g l)) = length (filter (fun x => f (g x)) l).
Proof. induction l as [|x l IH]; simpl; auto. destruct (f (g x)); simpl; lia. Qed.

Lemma filter_ext_In_len {A} (f g : A -> bool) l : (forall x, In x l -> f x = g x) -> length (filter f l) = length (filter g l).
Proof.
  intros H. induction l as [|x l IH]; simpl; auto. rewrite (H x (or_introl eq_refl)).
  destruct (g x); simpl; rewrite IH; auto with datatypes.
Qed.

Lemma filter_all {A} (f : A -> bool) l : (forall x, In x l -> f x = true) -> filter f l = l.
Proof.
  induction l as [|x l IH]; intros H; simpl; auto. rewrite (H x (or_introl eq_refl)). f_equal.
  apply IH. auto with datatypes.
Qed.
Lemma filter_none {A} (f : A -> bool) l : (forall x, In x l -> f x = false) -> filter f l = [].
Proof.
  induction l as [|x l IH]; intros H; simpl; auto. rewrite (H x (or_introl eq_refl)).
  apply IH. auto with datatypes.
Qed.

Lemma choose_0 n : choose n 0 = 1.
Proof. destruct n; reflexivity. Qed.
Lemma choose_small n : forall k, n < k -> choose n k = 0.
Proof.
  induction n as [|n IH]; intros k H; destruct k as [|k]; simpl; try lia. rewrite !IH by lia. reflexivity.
Qed.
Lemma choose_n n : choose n n = 1.
Proof. induction n as [|n IH]; simpl; auto. rewrite IH, choose_small by lia. reflexivity. Qed.

(** A fixed element is in C(n-1, k-1) of the combinations. *)
Lemma combinations_count k (l : list nat) x : NoDup l -> In x l ->
  length (filter (mem x) (combinations (S k) l)) = choose (length l - 1) k.
Proof.
  revert k. induction l as [|a l IH]; intros k Hd Hx; [destruct Hx|].
  inversion Hd as [|? ? Hn Hd']; subst. cbn [combinations length].
  rewrite filter_app_len, filter_map_len. replace (S (length l) - 1) with (length l) by lia.
  destruct (Nat.eq_dec x a) as [->|Hxa].
  - rewrite filter_all, combinations_length.
    2:{ intros G _. apply mem_In. now left. }
    rewrite filter_none; simpl; [lia|].
    intros G HG. apply combinations_elem in HG. destruct (mem a G) eqn:E; [|reflexivity].
    apply mem_In in E. exfalso. apply Hn, (proj2 HG), E.
  - destruct Hx as [->|Hx]; [congruence|].
    rewrite (filter_ext_In_len _ (mem x)).
    2:{ intros G _. unfold mem. simpl. destruct (Nat.eqb_spec x a); [congruence|reflexivity]. }
    rewrite (IH k Hd' Hx).
    destruct k as [|k].
    + rewrite !choose_0. destruct l; simpl; auto.
    + rewrite (IH k Hd' Hx). destruct l as [|b l]; [destruct Hx|]. simpl length.
      replace (S (length l) - 1) with (length l) by lia. simpl. lia.
Qed.

(** * Test sets *)

(** Separated non-empty blocks, latest first. *)
Definition separated (acc : list (nat * nat)) : Prop :=
  Forall (fun b => fst b < snd b) acc /\ StronglySorted (fun b b' => snd b' < fst b) acc.

Definition covers (acc : list (nat * nat)) (i : nat) : Prop := exists s e, In (s, e) acc /\ s <= i < e.

Lemma separated_maximal acc T : separated acc -> (forall i, In i T <-> covers acc i) ->
  forall s e, In (s, e) acc <-> maximal_block T s e.
Proof.
  intros [Hne Hs] Hc s e.
  assert (forall s1 e1 s2 e2, In (s1, e1) acc -> In (s2, e2) acc ->
            (s1, e1) = (s2, e2) \/ e1 < s2 \/ e2 < s1) as Hsep.
  { clear - Hs. induction Hs as [|b acc Hs IH Hf]; intros s1 e1 s2 e2 H1 H2; [destruct H1|].
    rewrite Forall_forall in Hf. destruct H1 as [->|H1], H2 as [H2|H2].
    - left. congruence.
    - right. right. apply (Hf _ H2).
    - subst. right. left. apply (Hf _ H1).
    - apply IH; auto. }
  rewrite Forall_forall in Hne. split.
  - intros H. pose proof (Hne _ H) as Hlt. simpl in Hlt. repeat split.
    + exact Hlt.
    + intros i Hi. apply Hc. exists s, e. auto.
    + intros He. apply Hc in He. destruct He as (s2 & e2 & H2 & Hin).
      destruct (Hsep _ _ _ _ H H2) as [Heq|[?|?]]; [inversion Heq; lia|lia|].
      pose proof (Hne _ H2). simpl in *. lia.
    + intros p Hp He. apply Hc in He. destruct He as (s2 & e2 & H2 & Hin).
      destruct (Hsep _ _ _ _ H H2) as [Heq|[?|?]]; [inversion Heq; lia| |lia]. lia.
  - intros (Hlt & Hin & He & Hp).
    assert (In s T) as HsT by (apply Hin; lia).
    apply Hc in HsT. destruct HsT as (s1 & e1 & H1 & Hb1).
    pose proof (Hne _ H1) as Hlt1. simpl in Hlt1.
    assert (s1 = s) as ->.
    { destruct (Nat.eq_dec s1 s) as [|Hd]; [assumption|]. exfalso.
      apply (Hp (s - 1)); [lia|]. apply Hc. exists s1, e1. split; [exact H1|lia]. }
    assert (e1 = e) as ->; [|exact H1].
    destruct (Nat.lt_trichotomy e1 e) as [Hl|[Heq|Hl]]; [|exact Heq|].
    + exfalso. assert (In e1 T) as HeT by (apply Hin; lia).
      apply Hc in HeT. destruct HeT as (s2 & e2 & H2 & Hb2).
      destruct (Hsep _ _ _ _ H1 H2) as [Heq|[?|?]]; [inversion Heq; lia|lia|lia].
    + exfalso. apply He. apply Hc. exists s, e1. split; [exact H1|lia].
Qed.

Lemma test_set_fold n k G : forall acc ti,
  k <> 0 -> k <= n -> increasing G -> (forall g, In g G -> g < k) ->
  separated acc -> (forall i, In i ti <-> covers acc i) -> increasing ti ->
  (forall s e g, In (s, e) acc -> In g G -> e <= gstart n k g) ->
  let r := fold_left (test_set_step n) (map (gbound n k) G) (acc, ti) in
  separated (fst r) /\ (forall i, In i (snd r) <-> covers (fst r) i) /\ increasing (snd r) /\
  (forall i, In i (snd r) <-> In i ti \/ exists g, In g G /\ gstart n k g <= i < gstart n k (S g)).
Proof.
  induction G as [|g G IH]; intros acc ti Hk Hn HG Hlt Hsep Hcov Hinc Hbd; cbn [map fold_left].
  - simpl. repeat split; auto; try apply Hsep; try apply Hcov.
    + intros [H|(g & [] & _)]. exact H.
  - inversion HG as [|? ? HG' HGf]; subst. rewrite Forall_forall in HGf.
    pose proof (Hlt g (or_introl eq_refl)) as Hgk.
    pose proof (gstart_step n k g Hk Hn) as Hstep.
    assert (gstart n k (S g) <= n) as Hgn.
    { rewrite <- (gstart_k n k Hk) at 2. apply gstart_mono; lia. }
    set (st := test_set_step n (acc, ti) (gbound n k g)).
    assert (forall i, In i (snd st) <-> In i ti \/ gstart n k g <= i < gstart n k (S g)) as Hin.
    { intros i. unfold st, test_set_step, gbound. simpl. rewrite union1d_In. unfold indices.
      rewrite slice_seq_In. split; [intros [?|?]; [tauto|right; lia] | intros [?|?]; [tauto|right; lia]]. }
    assert (separated (fst st) /\ (forall i, covers (fst st) i <-> covers acc i \/ gstart n k g <= i < gstart n k (S g))
            /\ (forall s e, In (s, e) (fst st) -> e <= gstart n k (S g))) as (Hsep' & Hcov' & Hbd').
    { unfold st, test_set_step, gbound. cbn [fst snd].
      destruct Hsep as [Hne Hss].
      destruct acc as [|[s0 e0] r].
      - repeat split.
        + constructor; [simpl; lia|constructor].
        + constructor; constructor.
        + intros (s & e & [He|[]] & Hr). inversion He; subst. right. exact Hr.
        + intros [(s & e & [] & _)|Hr]. exists (gstart n k g), (gstart n k (S g)). split; [now left|exact Hr].
        + intros s e [He|[]]. inversion He; subst. lia.
      - inversion Hss as [|? ? Hss' Hsf]; subst. inversion Hne as [|? ? Hne0 Hne']; subst. simpl in Hne0.
        pose proof (Hbd s0 e0 g (or_introl eq_refl) (or_introl eq_refl)) as Hbd0.
        destruct (Nat.eqb_spec (gstart n k g) e0) as [Heq|Hneq].
        + repeat split.
          * constructor; [simpl; lia|exact Hne'].
          * constructor; [exact Hss'|]. rewrite Forall_forall in *. intros [s1 e1] H1. apply (Hsf _ H1).
          * intros (s & e & [He|He] & Hr).
            -- inversion He; subst. destruct (Nat.lt_ge_cases i (gstart n k g)).
               ++ left. exists s, (gstart n k g). split; [now left|lia].
               ++ right. lia.
            -- left. exists s, e. split; [now right|exact Hr].
          * intros [(s & e & [He|He] & Hr)|Hr].
            -- inversion He; subst. exists s, (gstart n k (S g)). split; [now left|lia].
            -- exists s, e. split; [now right|exact Hr].
            -- exists s0, (gstart n k (S g)). split; [now left|lia].
          * intros s e [He|He]; [inversion He; subst; lia|].
            pose proof (Hbd s e g (or_intror He) (or_introl eq_refl)). lia.
        + repeat split.
          * constructor; [simpl; lia|]. constructor; assumption.
          * constructor; [exact Hss|]. rewrite Forall_forall in *. intros [s1 e1] H1. simpl.
            destruct H1 as [H1|H1]; [inversion H1; subst; lia|].
            specialize (Hsf _ H1). simpl in Hsf. lia.
          * intros (s & e & [He|He] & Hr); [inversion He; subst; right; exact Hr|].
            left. exists s, e. auto.
          * intros [(s & e & He & Hr)|Hr].
            -- exists s, e. split; [now right|exact Hr].
            -- exists (gstart n k g), (gstart n k (S g)). split; [now left|exact Hr].
          * intros s e [He|He]; [inversion He; subst; lia|].
            pose proof (Hbd s e g He (or_introl eq_refl)). lia. }
    replace st with (fst st, snd st) by (destruct st; reflexivity).
    destruct (IH (fst st) (snd st) Hk Hn HG') as (R1 & R2 & R3 & R4).
    + intros g' Hg'. apply Hlt. now right.
    + exact Hsep'.
    + intros i. rewrite Hin, Hcov', Hcov. tauto.
    + unfold st, test_set_step, gbound. simpl. apply np_unique_inc.
    + intros s e g' He Hg'. specialize (Hbd' s e He). specialize (HGf g' Hg').
      pose proof (gstart_mono n k (S g) g' Hk Hn HGf). lia.
    + cbv zeta. repeat split; try apply R1; try apply R2; try apply R3.
      * intros Hi. apply R4 in Hi. destruct Hi as [Hi|(g' & Hg' & Hr)].
        -- apply Hin in Hi. destruct Hi as [Hi|Hi]; [tauto|]. right. exists g. split; [now left|exact Hi].
        -- right. exists g'. split; [now right|exact Hr].
      * intros [Hi|(g' & [<-|Hg'] & Hr)]; apply R4.
        -- left. apply Hin. tauto.
        -- left. apply Hin. tauto.
        -- right. exists g'. tauto.
Qed.

(** The test set of a choice of groups. *)
Lemma compute_test_set_spec n k G bounds test :
  k <> 0 -> k <= n -> increasing G -> (forall g, In g G -> g < k) ->
  compute_test_set n (map (gbound n k) G) = (bounds, test) ->
  increasing test /\
  (forall i, In i test <-> exists g, In g G /\ gstart n k g <= i < gstart n k (S g)) /\
  (forall s e, In (s, e) bounds <-> maximal_block test s e).
Proof.
  intros Hk Hn HG Hlt H. unfold compute_test_set in H.
  destruct (test_set_fold n k G [] [] Hk Hn HG Hlt) as (R1 & R2 & R3 & R4).
  - split; constructor.
  - intros i. split; [intros []|intros (s & e & [] & _)].
  - constructor.
  - intros s e g [].
  - destruct (fold_left (test_set_step n) (map (gbound n k) G) ([], [])) as [acc ti] eqn:E.
    simpl in *. inversion H; subst. split; [exact R3|split].
    + intros i. rewrite R4. split; [intros [[]|?]; assumption|tauto].
    + intros s e. rewrite <- in_rev. apply separated_maximal; assumption.
Qed.

Lemma test_set_lt n k G i : k <> 0 -> k <= n -> (forall g, In g G -> g < k) ->
  (exists g, In g G /\ gstart n k g <= i < gstart n k (S g)) -> i < n.
Proof.
  intros Hk Hn Hlt (g & Hg & Hr). specialize (Hlt g Hg).
  pose proof (gstart_mono n k (S g) k Hk Hn Hlt). rewrite gstart_k in H by exact Hk. lia.
Qed.

(** * Train sets *)

Lemma before_In c n t0 i m : length (eval_times c) = n ->
  mask_select (indices n) (map (fun e => ot_ltb e t0) (eval_times c)) = Ok m ->
  In i m <-> exists y, nth_error (eval_times c) i = Some (Some y) /\ (y < t0)%Z.
Proof.
  intros Hlen H. unfold mask_select, indices in H. rewrite seq_length, map_length in H.
  destruct (Nat.eqb_spec n (length (eval_times c))) as [_|?]; [|congruence].
  inversion H; subst m; clear H.
  rewrite mask_sel_In by (rewrite seq_length, map_length; congruence).
  split.
  - intros (j & Hj & Hm). apply nth_error_seq in Hj. destruct Hj as [Hj ->]. simpl.
    rewrite nth_error_map in Hm. destruct (nth_error (eval_times c) j) as [[y|]|]; simpl in Hm; try discriminate.
    exists y. split; [reflexivity|]. injection Hm as Hm. lia.
  - intros (y & Hy & Hlt). exists i. split.
    + apply nth_error_seq. split; [|reflexivity]. rewrite <- Hlen. apply nth_error_Some. congruence.
    + rewrite nth_error_map, Hy. simpl. f_equal. lia.
Qed.

Lemma purge_ok c n train fs fe : length (pred_times c) = n -> length (eval_times c) = n -> fs < n ->
  exists t0 r, nth_error (pred_times c) fs = Some t0 /\ purge c n train fs fe = Ok r /\
  (forall i, In i r <-> In i train /\
     ((exists y, nth_error (eval_times c) i = Some (Some y) /\ (y < t0)%Z) \/ (fe <= i /\ i < n))) /\
  (exists a b, r = a ++ b /\ increasing a /\ increasing b /\
     (forall i, In i a -> exists y, nth_error (eval_times c) i = Some (Some y) /\ (y < t0)%Z) /\
     (forall i, In i b -> fe <= i < n)).
Proof.
  intros Hp He Hfs. destruct (get_lt (pred_times c) fs ltac:(lia)) as (t0 & Hg & Ht).
  unfold purge. rewrite Hg. cbn [bind].
  assert (exists m, mask_select (indices n) (map (fun e => ot_ltb e t0) (eval_times c)) = Ok m) as (m & Hm).
  { unfold mask_select, indices. rewrite seq_length, map_length, He, Nat.eqb_refl. eauto. }
  rewrite Hm. cbn [bind]. pose proof (fun i => before_In c n t0 i m He Hm) as Hb.
  assert (forall i, In i (skipn fe (indices n)) <-> fe <= i < n) as Hs.
  { intros i. unfold indices. rewrite skipn_seq, in_seq. lia. }
  exists t0. eexists. split; [exact Ht|split; [reflexivity|split]].
  - intros i. rewrite in_app_iff, !intersect1d_In, Hb, Hs. tauto.
  - eexists. eexists. split; [reflexivity|]. repeat split.
    + apply np_unique_inc.
    + apply np_unique_inc.
    + intros i Hi. apply intersect1d_In in Hi. apply Hb. tauto.
    + apply intersect1d_In in H. apply Hs. tauto.
    + apply intersect1d_In in H. apply Hs. tauto.
Qed.

Lemma ot_max_app l x : ot_max (l ++ [x]) =
  match ot_max l, x with Some a, Some b => Some (Z.max a b) | Some a, None => Some a | None, x => x end.
Proof. unfold ot_max. rewrite fold_left_app. reflexivity. Qed.

Lemma ot_max_spec l : match ot_max l with
  | None => forall x, In x l -> x = None
  | Some m => In (Some m) l /\ (forall y, In (Some y) l -> (y <= m)%Z)
  end.
Proof.
  induction l as [|x l IH] using rev_ind.
  - simpl. tauto.
  - rewrite ot_max_app. destruct (ot_max l) as [a|].
    + destruct IH as [Ha Hm]. destruct x as [b|].
      * split.
        -- apply in_or_app. destruct (Z.max_spec a b) as [[_ ->]|[_ ->]]; simpl; auto.
        -- intros y Hy. apply in_app_or in Hy. destruct Hy as [Hy|[Hy|[]]].
           ++ specialize (Hm y Hy). lia.
           ++ inversion Hy. lia.
      * split; [apply in_or_app; auto|]. intros y Hy. apply in_app_or in Hy.
        destruct Hy as [Hy|[Hy|[]]]; [auto|discriminate].
    + destruct x as [b|].
      * split; [apply in_or_app; simpl; auto|]. intros y Hy. apply in_app_or in Hy.
        destruct Hy as [Hy|[Hy|[]]]; [specialize (IH _ Hy); discriminate|]. inversion Hy. lia.
      * intros y Hy. apply in_app_or in Hy. destruct Hy as [Hy|[Hy|[]]]; auto.
Qed.

(** In a sorted list the elements below a bound form a prefix. *)
Lemma filter_prefix (l : list Z) b : non_decreasing l -> forall i x, nth_error l i = Some x ->
  (length (filter (fun p => (p <=? b)%Z) l) <= i <-> (b < x)%Z).
Proof.
  intros Hs. induction l as [|a l IH]; intros i x Hi; [destruct i; discriminate|].
  assert (non_decreasing l) as Hs'.
  { intros j k y z Hjk Hy Hz. apply (Hs (S j) (S k)); auto. lia. }
  simpl. destruct (Z.leb_spec a b) as [Hab|Hab].
  - destruct i as [|i]; simpl in Hi.
    + inversion Hi; subst. simpl. lia.
    + simpl. rewrite <- (IH Hs' i x Hi). lia.
  - assert (b < x)%Z as Hbx.
    { pose proof (Hs 0 i a x ltac:(lia) eq_refl Hi). lia. }
    assert (filter (fun p => (p <=? b)%Z) l = []) as ->.
    { apply filter_none. intros y Hy. apply In_nth_error in Hy. destruct Hy as (j & Hj).
      pose proof (Hs 0 (S j) a y ltac:(lia) eq_refl Hj). lia. }
    simpl. lia.
Qed.

(** What the embargo of one block lets through. *)
Definition embargo_pred (c : cv) (n : nat) (test : list nat) (fe i : nat) : Prop :=
  forall m, latest (eval_times c) (firstn fe test) m ->
  (exists j x, nth_error (pred_times c) j = Some x /\ (m + embargo_td c < x)%Z) ->
  i < fe \/ exists x, nth_error (pred_times c) i = Some x /\ (m + embargo_td c < x)%Z.



Lemma embargo_ok c n train test fe :
  length (pred_times c) = n -> length (eval_times c) = n -> non_decreasing (pred_times c) ->
  (forall i, In i test -> i < n) -> (forall i, In i train -> i < n) ->
  exists r, embargo c n train test fe = Ok r /\
  (forall i, In i r <-> In i train /\ embargo_pred c n test fe i) /\
  (increasing train -> increasing r).
Proof.
  intros Hp He Hs Htest Htrain. unfold embargo.
  assert (exists evs, mapM (get (eval_times c)) (firstn fe test) = Ok evs) as (evs & Hevs).
  { assert (forall i, In i (firstn fe test) -> i < n) as Hf.
    { intros i Hi. apply Htest. rewrite <- (firstn_skipn fe test). apply in_or_app. auto. }
    clear - He Hf. induction (firstn fe test) as [|a l IH]; simpl; [eauto|].
    destruct (get_lt (eval_times c) a) as (y & -> & _).
    { rewrite He. apply Hf. now left. }
    destruct IH as (ys & ->); [intros; apply Hf; now right|]. simpl. eauto. }
  rewrite Hevs. cbn [bind].
  assert (forall o, In o evs <-> exists i, In i (firstn fe test) /\ nth_error (eval_times c) i = Some o) as Hev.
  { intros o. split.
    - intros Ho. destruct (mapM_In _ _ _ _ Hevs Ho) as (i & Hi & Hg). exists i. split; [exact Hi|]. now apply get_Ok.
    - intros (i & Hi & Hn). destruct (mapM_In_r _ _ _ _ Hevs Hi) as (y & Hy & Hg). apply get_Ok in Hg. congruence. }
  pose proof (ot_max_spec evs) as Hmax.
  unfold indices. rewrite seq_length.
  assert (forall m, latest (eval_times c) (firstn fe test) m <-> ot_max evs = Some m) as Hlat.
  { intros m. split.
    - intros [(i & Hi & Hn) Hub]. assert (In (Some m) evs) as Hin by (apply Hev; eauto).
      destruct (ot_max evs) as [m'|]; [|specialize (Hmax _ Hin); discriminate].
      destruct Hmax as [Hm' Hub']. f_equal. specialize (Hub' m Hin).
      apply Hev in Hm'. destruct Hm' as (j & Hj & Hn'). specialize (Hub j m' Hj Hn'). lia.
    - intros Em. rewrite Em in Hmax. destruct Hmax as [Hm Hub]. apply Hev in Hm. split; [exact Hm|].
      intros i y Hi Hn. apply Hub, Hev. eauto. }
  unfold embargo_pred.
  destruct (ot_max evs) as [m|] eqn:Emax; simpl option_map.
  - set (cnt := length (filter (fun p => ot_leb_r p (Some (m + embargo_td c))%Z) (pred_times c))).
    assert (forall i x, nth_error (pred_times c) i = Some x -> (cnt <= i <-> (m + embargo_td c < x)%Z)) as Hcnt.
    { apply (filter_prefix (pred_times c) (m + embargo_td c) Hs). }
    destruct (Nat.ltb_spec cnt n) as [Hlt|Hge].
    + eexists. split; [reflexivity|split].
      * intros i. rewrite intersect1d_In, in_app_iff, firstn_seq, skipn_seq, !in_seq.
        split.
        -- intros [Hi Hor]. split; [exact Hi|]. intros m' Hm' _. apply Hlat in Hm'. inversion Hm'; subst m'.
           destruct Hor as [Hor|Hor]; [left; lia|].
           destruct (nth_error (pred_times c) i) as [x|] eqn:Ex.
           ++ right. exists x. split; [reflexivity|]. apply (Hcnt i x Ex). lia.
           ++ apply nth_error_None in Ex. lia.
        -- intros [Hi Himp]. split; [exact Hi|]. pose proof (Htrain i Hi).
           destruct (Himp m) as [Hi'|(x & Hx & Hlt')].
           ++ now apply Hlat.
           ++ destruct (nth_error (pred_times c) cnt) as [x|] eqn:Ex; [|apply nth_error_None in Ex; lia].
              exists cnt, x. split; [exact Ex|]. apply (Hcnt cnt x Ex). lia.
           ++ left. lia.
           ++ right. apply (Hcnt i x Hx) in Hlt'. lia.
      * intros _. apply np_unique_inc.
    + eexists. split; [reflexivity|split]; [|auto].
      intros i. split; [|tauto]. intros Hi. split; [exact Hi|].
      intros m' Hm' (j & x & Hx & Hlt). exfalso. apply Hlat in Hm'. inversion Hm'; subst m'.
      apply (Hcnt j x Hx) in Hlt. assert (j < length (pred_times c)) by (apply nth_error_Some; congruence). lia.
  - set (cnt := length (filter (fun p => ot_leb_r p None) (pred_times c))).
    assert (cnt = 0) as ->.
    { unfold cnt. rewrite filter_none; [reflexivity|]. reflexivity. }
    assert (forall m, ~ latest (eval_times c) (firstn fe test) m) as Hno.
    { intros m Hm. apply Hlat in Hm. discriminate. }
    destruct (Nat.ltb_spec 0 n) as [Hlt|Hge].
    + eexists. split; [reflexivity|split; [|intros _; apply np_unique_inc]].
      intros i. rewrite intersect1d_In, in_app_iff, skipn_seq, !in_seq. split.
      * intros [Hi _]. split; [exact Hi|]. intros m Hm. exfalso. eapply Hno; eauto.
      * intros [Hi _]. split; [exact Hi|]. right. pose proof (Htrain i Hi). lia.
    + eexists. split; [reflexivity|split]; [|auto].
      intros i. split; [|tauto]. intros Hi. split; [exact Hi|]. intros m Hm. exfalso. eapply Hno; eauto.
Qed.

Definition purge_pred (c : cv) (fs fe i : nat) : Prop :=
  fe <= i \/ exists t0 y, nth_error (pred_times c) fs = Some t0 /\ nth_error (eval_times c) i = Some (Some y) /\ (y < t0)%Z.

Lemma train_loop c n test bounds : forall train,
  length (pred_times c) = n -> length (eval_times c) = n -> non_decreasing (pred_times c) ->
  (forall i, In i test -> i < n) -> (forall i, In i train -> i < n) ->
  (forall s e, In (s, e) bounds -> s < n) ->
  exists r, foldM (fun train b => do p <- purge c n train (fst b) (snd b) ;; embargo c n p test (snd b)) train bounds = Ok r /\
  (forall i, In i r <-> In i train /\
     forall s e, In (s, e) bounds -> purge_pred c s e i /\ embargo_pred c n test e i) /\
  (increasing train -> ends_after_start (pred_times c) (eval_times c) -> (forall s e, In (s, e) bounds -> s < e) -> increasing r).
Proof.
  induction bounds as [|[s e] bounds IH]; intros train Hp He Hs Htest Htrain Hb.
  - exists train. split; [reflexivity|split; [|auto]]. intros i. split; [|tauto]. intros Hi. split; [exact Hi|]. intros s e [].
  - cbn [foldM fst snd].
    destruct (purge_ok c n train s e Hp He (Hb s e (or_introl eq_refl))) as (t0 & r1 & Ht0 & Hr1 & Hin1 & Hshape).
    rewrite Hr1. cbn [bind].
    destruct (embargo_ok c n r1 test e Hp He Hs Htest) as (r2 & Hr2 & Hin2 & Hinc2).
    { intros i Hi. apply Hin1 in Hi. apply Htrain. tauto. }
    rewrite Hr2. cbn [bind].
    destruct (IH r2 Hp He Hs Htest) as (r & Hr & Hin & Hinc).
    { intros i Hi. apply Hin2 in Hi. destruct Hi as [Hi _]. apply Hin1 in Hi. apply Htrain. tauto. }
    { intros s' e' Hse. apply (Hb s' e'). now right. }
    exists r. split; [exact Hr|split].
    + intros i. rewrite Hin, Hin2, Hin1. split.
      * intros [[[Hi Hpg] Hem] Hall]. split; [exact Hi|]. intros s' e' [Heq|Hse]; [|auto].
        inversion Heq; subst. split; [|exact Hem]. destruct Hpg as [(y & Hy & Hlt)|Hge].
        -- right. exists t0, y. auto.
        -- left. lia.
      * intros [Hi Hall]. destruct (Hall s e (or_introl eq_refl)) as [Hpg Hem].
        split; [|intros s' e' Hse; apply Hall; now right]. split; [split|exact Hem]; [exact Hi|].
        destruct Hpg as [Hge|(t0' & y & Ht' & Hy & Hlt)]; [right; split; [lia|apply Htrain, Hi]|].
        left. exists y. split; [exact Hy|]. congruence.
    + intros Hinct Hea Hse. apply Hinc; auto.
      * apply Hinc2. destruct Hshape as (a & b & -> & Ha & Hbb & Hina & Hinb).
        unfold increasing. apply SS_app. split; [exact Ha|split; [exact Hbb|]].
        intros x y Hx Hy. specialize (Hinb y Hy). destruct (Hina x Hx) as (ex & Hex & Hlt).
        destruct (Nat.lt_ge_cases x e) as [Hxe|Hxe]; [lia|]. exfalso.
        assert (x < n) as Hxn by (rewrite <- He; apply nth_error_Some; congruence).
        destruct (nth_error (pred_times c) x) as [px|] eqn:Epx; [|apply nth_error_None in Epx; lia].
        pose proof (Hea x px ex Epx Hex). pose proof (Hse s e (or_introl eq_refl)).
        pose proof (Hs s x t0 px ltac:(lia) Ht0 Epx). lia.
      * intros s' e' H. apply (Hse s' e'). now right.
Qed.

(** * The constructor *)

Lemma factZ_pos n : (0 < factZ n)%Z.
Proof. induction n as [|n IH]; cbn [factZ]; lia. Qed.

Lemma choose_fact n : forall k, k <= n ->
  (Z.of_nat (choose n k) * (factZ k * factZ (n - k)) = factZ n)%Z.
Proof.
  induction n as [|n IH]; intros k Hk.
  - replace k with 0 by lia. reflexivity.
  - destruct k as [|k].
    + cbn [choose]. rewrite Nat.sub_0_r. cbn [factZ]. lia.
    + cbn [choose]. replace (S n - S k) with (n - k) by lia.
      destruct (Nat.eq_dec k n) as [->|Hne].
      * rewrite (choose_small n (S n)) by lia. rewrite choose_n, Nat.sub_diag.
        change (factZ 0) with 1%Z. lia.
      * pose proof (IH k ltac:(lia)) as H1. pose proof (IH (S k) ltac:(lia)) as H2.
        replace (n - k) with (S (n - S k)) in * by lia.
        set (m := n - S k) in *.
        cbn [factZ] in *. 
        assert (Z.of_nat n = Z.of_nat k + Z.of_nat m + 1)%Z as Hn by lia.
        rewrite Nat2Z.inj_add.
        transitivity ((Z.of_nat (S k)) * (Z.of_nat (choose n k) * (factZ k * (Z.of_nat (S m) * factZ m))) +
                      (Z.of_nat (S m)) * (Z.of_nat (choose n (S k)) * (Z.of_nat (S k) * factZ k * factZ m)))%Z; [ring|].
        rewrite H1, H2. rewrite !Nat2Z.inj_succ. rewrite Hn. ring.
Qed.

Lemma choose_fact_div n k : k <= n -> (factZ n / (factZ k * factZ (n - k)) = Z.of_nat (choose n k))%Z
  /\ (factZ n = Z.of_nat (choose n k) * (factZ k * factZ (n - k)))%Z.
Proof.
  intros H. pose proof (choose_fact n k H) as Hc. pose proof (factZ_pos k). pose proof (factZ_pos (n - k)).
  split; [|lia]. rewrite <- Hc. apply Z.div_mul. nia.
Qed.

Lemma choose_pos n k : k <= n -> 1 <= choose n k.
Proof.
  intros H. destruct (choose n k) eqn:E; [|lia]. pose proof (choose_fact n k H). rewrite E in H0.
  pose proof (factZ_pos n). lia.
Qed.

Section TrueDiv.
  Variables a b q : Z.
  Hypothesis Hb : (0 < b)%Z.
  Hypothesis Hq : (1 <= q)%Z.
  Hypothesis Ha : (a = q * b)%Z.

  Local Lemma pow_split x y : (0 <= x -> 0 <= y -> 2 ^ (x + y) = 2 ^ x * 2 ^ y)%Z.
  Proof. intros. now apply Z.pow_add_r. Qed.

  Local Lemma a_pos : (0 < a)%Z.
  Proof. nia. Qed.

  Local Lemma log_facts : (2 ^ Z.log2 a <= a < 2 * 2 ^ Z.log2 a /\ 2 ^ Z.log2 b <= b < 2 * 2 ^ Z.log2 b)%Z.
  Proof.
    pose proof a_pos as Hap. pose proof (Z.log2_spec a Hap) as H1. pose proof (Z.log2_spec b Hb) as H2.
    rewrite Z.pow_succ_r in H1 by apply Z.log2_nonneg. rewrite Z.pow_succ_r in H2 by apply Z.log2_nonneg. lia.
  Qed.

  (** q > 2^(la - lb - 1) and q < 2^(la - lb + 1), in multiplied-out form *)
  Local Lemma q_bounds d : (0 <= d)%Z ->
    ((Z.log2 a - Z.log2 b >= d + 1)%Z -> (2 ^ d < q)%Z) /\
    ((Z.log2 a - Z.log2 b + 1 <= d)%Z -> (q < 2 ^ d)%Z).
  Proof.
    intros Hd. destruct log_facts as [Fa Fb].
    pose proof (Z.log2_nonneg a). pose proof (Z.log2_nonneg b).
    assert (0 < 2 ^ Z.log2 b)%Z by (apply Z.pow_pos_nonneg; lia).
    split; intros Hdd.
    - assert (2 ^ Z.log2 a >= 2 ^ d * 2 ^ (Z.log2 b + 1))%Z as Hle.
      { rewrite <- Z.pow_add_r by lia. apply Z.le_ge, Z.pow_le_mono_r; lia. }
      rewrite (Z.pow_add_r 2 (Z.log2 b) 1) in Hle by lia.
      assert (0 < 2 ^ d)%Z by (apply Z.pow_pos_nonneg; lia). nia.
    - assert (2 ^ (Z.log2 a + 1) <= 2 ^ d * 2 ^ Z.log2 b)%Z as Hle.
      { rewrite <- Z.pow_add_r by lia. apply Z.pow_le_mono_r; lia. }
      rewrite (Z.pow_add_r 2 (Z.log2 a) 1) in Hle by lia. nia.
  Qed.

  Let e0 := (Z.log2 a - Z.log2 b - 52)%Z.
  Let e := if (a * 2 ^ Z.max 0 (- e0) <? 2 ^ 52 * (b * 2 ^ Z.max 0 e0))%Z then (e0 - 1)%Z else e0.

  Lemma int_truediv_exact : (q < 2 ^ 53)%Z -> int_truediv a b = Ok q.
  Proof.
    intros Hlt. unfold int_truediv. fold e0. fold e. pose proof a_pos as Hap.
    destruct (Z.eqb_spec a 0) as [?|_]; [lia|].
    assert (e <= 0)%Z as He.
    { unfold e. destruct (Z.ltb_spec (a * 2 ^ Z.max 0 (- e0)) (2 ^ 52 * (b * 2 ^ Z.max 0 e0)))%Z as [H|H].
      - destruct (Z.le_gt_cases e0 1) as [|H2]; [lia|]. exfalso.
        destruct (q_bounds 53 ltac:(lia)) as [Hq1 _]. unfold e0 in H2. specialize (Hq1 ltac:(lia)). lia.
      - destruct (Z.le_gt_cases e0 0) as [|H2]; [lia|]. exfalso.
        replace (Z.max 0 (- e0)) with 0%Z in H by lia. replace (Z.max 0 e0) with (1 + (e0 - 1))%Z in H by lia.
        rewrite Z.pow_add_r in H by lia. change (2 ^ 1)%Z with 2%Z in H.
        assert (1 <= 2 ^ (e0 - 1))%Z by (apply Z.lt_pred_le, Z.pow_pos_nonneg; lia).
        change (2 ^ 53)%Z with (2 * 2 ^ 52)%Z in Hlt. rewrite Z.pow_0_r, Ha in H.
        assert (0 < 2 ^ 52)%Z as HX by reflexivity. set (X := (2 ^ 52)%Z) in *. clearbody X.
        set (P := (2 ^ (e0 - 1))%Z) in *. clearbody P.
        assert (X * b * 1 <= X * b * P)%Z by (apply Z.mul_le_mono_nonneg_l; nia).
        assert (q * b < 2 * X * b)%Z by (apply Z.mul_lt_mono_pos_r; assumption). lia. }
    replace (Z.max 0 e) with 0%Z by lia. replace (Z.max 0 (- e)) with (- e)%Z by lia.
    rewrite Z.pow_0_r, Z.mul_1_r.
    assert (0 < 2 ^ (- e))%Z as Hpe by (apply Z.pow_pos_nonneg; lia).
    assert (round_half_even (a * 2 ^ - e) b = q * 2 ^ - e)%Z as Hm.
    { clear Hlt He. revert Hpe. generalize (2 ^ (- e))%Z. intros pe Hpe.
      unfold round_half_even. replace (a * pe)%Z with (q * pe * b)%Z by (rewrite Ha; ring).
      rewrite Z.div_mul, Z.mod_mul by lia. destruct (Z.compare_spec (2 * 0) b); lia. }
    rewrite Hm.
    assert ((if 0 <=? e then q * 2 ^ (- e) * 2 ^ e else q * 2 ^ (- e) / 2 ^ (- e)) = q)%Z as Hv.
    { destruct (Z.leb_spec 0 e) as [H0|H0].
      - replace e with 0%Z by lia. rewrite Z.pow_0_r. lia.
      - apply Z.div_mul. lia. }
    rewrite Hv. destruct (Z.leb_spec (2 ^ 1024) q) as [H|_]; [|reflexivity].
    exfalso. assert (2 ^ 53 < 2 ^ 1024)%Z by reflexivity. lia.
  Qed.

  Lemma int_truediv_large v : (2 ^ 53 <= q)%Z -> int_truediv a b = Ok v -> (2 ^ 53 <= v)%Z.
  Proof.
    intros Hge H. unfold int_truediv in H. fold e0 in H. fold e in H. pose proof a_pos as Hap.
    destruct (Z.eqb_spec a 0) as [?|_]; [lia|].
    assert (1 <= e0)%Z as He0.
    { destruct (Z.le_gt_cases 1 e0) as [|H2]; [assumption|]. exfalso.
      destruct (q_bounds 53 ltac:(lia)) as [_ Hq2]. unfold e0 in H2. specialize (Hq2 ltac:(lia)). lia. }
    assert (1 <= e /\ 2 ^ 52 * (b * 2 ^ e) <= a)%Z as [He Hm].
    { unfold e. destruct (Z.ltb_spec (a * 2 ^ Z.max 0 (- e0)) (2 ^ 52 * (b * 2 ^ Z.max 0 e0)))%Z as [H1|H1];
        replace (Z.max 0 (- e0)) with 0%Z in H1 by lia; replace (Z.max 0 e0) with e0 in H1 by lia;
        rewrite Z.pow_0_r in H1.
      - assert (e0 <> 1)%Z.
        { intros E. rewrite E in H1. change (2 ^ 1)%Z with 2%Z in H1. change (2 ^ 53)%Z with (2 * 2 ^ 52)%Z in Hge.
          rewrite Ha in H1. set (X := (2 ^ 52)%Z) in *. clearbody X.
          assert (2 * X * b <= q * b)%Z by (apply Z.mul_le_mono_nonneg_r; lia). lia. }
        split; [lia|].
        destruct (q_bounds (e0 + 51) ltac:(lia)) as [Hq1 _].
        assert (Z.log2 a - Z.log2 b >= e0 + 51 + 1)%Z as Hd by (unfold e0; lia). specialize (Hq1 Hd).
        replace (e0 + 51)%Z with (52 + (e0 - 1))%Z in Hq1 by lia. rewrite Z.pow_add_r in Hq1 by lia.
        set (X := (2 ^ 52)%Z) in *. clearbody X. set (P := (2 ^ (e0 - 1))%Z) in *. clearbody P.
        assert (X * P * b <= q * b)%Z by (apply Z.mul_le_mono_nonneg_r; lia). lia.
      - split; [lia|]. lia. }
    replace (Z.max 0 e) with e in H by lia. replace (Z.max 0 (- e)) with 0%Z in H by lia.
    rewrite Z.pow_0_r, Z.mul_1_r in H.
    destruct (Z.leb_spec 0 e) as [_|?]; [|lia].
    assert (0 < 2 ^ e)%Z as Hpe by (apply Z.pow_pos_nonneg; lia).
    assert (2 ^ 52 <= round_half_even a (b * 2 ^ e))%Z as Hr.
    { assert (2 ^ 52 <= a / (b * 2 ^ e))%Z by (apply Z.div_le_lower_bound; [nia|lia]).
      unfold round_half_even. destruct (Z.compare_spec (2 * (a mod (b * 2 ^ e))) (b * 2 ^ e))%Z; [|lia|lia].
      destruct (Z.even _); lia. }
    destruct (Z.leb_spec (2 ^ 1024) (round_half_even a (b * 2 ^ e) * 2 ^ e)); [discriminate|].
    injection H as <-.
    assert (2 <= 2 ^ e)%Z by (change 2%Z with (2 ^ 1)%Z at 1; apply Z.pow_le_mono_r; lia).
    change (2 ^ 53)%Z with (2 ^ 52 * 2)%Z. assert (0 < 2 ^ 52)%Z by reflexivity.
    generalize dependent (2 ^ 52)%Z. intros. nia.
  Qed.
  Lemma int_truediv_near v : (2 ^ 53 <= q)%Z -> int_truediv a b = Ok v ->
    exists e m, (1 <= e)%Z /\ (2 ^ 52 * 2 ^ e <= q < 2 ^ 53 * 2 ^ e)%Z /\ v = (m * 2 ^ e)%Z /\ (2 * Z.abs (v - q) <= 2 ^ e)%Z /\
      ((2 * Z.abs (v - q))%Z = (2 ^ e)%Z -> Z.even m = true).
  Proof.
    intros Hge H. unfold int_truediv in H. fold e0 in H. fold e in H. pose proof a_pos as Hap.
    destruct (Z.eqb_spec a 0) as [?|_]; [lia|].
    assert (1 <= e0)%Z as He0.
    { destruct (Z.le_gt_cases 1 e0) as [|H2]; [assumption|]. exfalso.
      destruct (q_bounds 53 ltac:(lia)) as [_ Hq2]. unfold e0 in H2. specialize (Hq2 ltac:(lia)). lia. }
    assert (1 <= e /\ 2 ^ 52 * (b * 2 ^ e) <= a)%Z as [He Hm].
    { unfold e. destruct (Z.ltb_spec (a * 2 ^ Z.max 0 (- e0)) (2 ^ 52 * (b * 2 ^ Z.max 0 e0)))%Z as [H1|H1];
        replace (Z.max 0 (- e0)) with 0%Z in H1 by lia; replace (Z.max 0 e0) with e0 in H1 by lia;
        rewrite Z.pow_0_r in H1.
      - assert (e0 <> 1)%Z.
        { intros E. rewrite E in H1. change (2 ^ 1)%Z with 2%Z in H1. change (2 ^ 53)%Z with (2 * 2 ^ 52)%Z in Hge.
          rewrite Ha in H1. set (X := (2 ^ 52)%Z) in *. clearbody X.
          assert (2 * X * b <= q * b)%Z by (apply Z.mul_le_mono_nonneg_r; lia). lia. }
        split; [lia|].
        destruct (q_bounds (e0 + 51) ltac:(lia)) as [Hq1 _].
        assert (Z.log2 a - Z.log2 b >= e0 + 51 + 1)%Z as Hd by (unfold e0; lia). specialize (Hq1 Hd).
        replace (e0 + 51)%Z with (52 + (e0 - 1))%Z in Hq1 by lia. rewrite Z.pow_add_r in Hq1 by lia.
        set (X := (2 ^ 52)%Z) in *. clearbody X. set (P := (2 ^ (e0 - 1))%Z) in *. clearbody P.
        assert (X * P * b <= q * b)%Z by (apply Z.mul_le_mono_nonneg_r; lia). lia.
      - split; [lia|]. lia. }
    assert (q < 2 ^ 53 * 2 ^ e)%Z as Hu.
    { unfold e. destruct (Z.ltb_spec (a * 2 ^ Z.max 0 (- e0)) (2 ^ 52 * (b * 2 ^ Z.max 0 e0)))%Z as [H1|H1].
      - replace (Z.max 0 (- e0)) with 0%Z in H1 by lia. replace (Z.max 0 e0) with (1 + (e0 - 1))%Z in H1 by lia.
        rewrite Z.pow_add_r, Z.pow_0_r in H1 by lia. change (2 ^ 1)%Z with 2%Z in H1. change (2 ^ 53)%Z with (2 * 2 ^ 52)%Z.
        set (X := (2 ^ 52)%Z) in *. clearbody X. set (P := (2 ^ (e0 - 1))%Z) in *. clearbody P. clear - H1 Ha Hb. nia.
      - destruct (q_bounds (53 + e0) ltac:(lia)) as [_ Hq2]. specialize (Hq2 ltac:(unfold e0; lia)). rewrite Z.pow_add_r in Hq2 by lia. exact Hq2. }
    replace (Z.max 0 e) with e in H by lia. replace (Z.max 0 (- e)) with 0%Z in H by lia.
    rewrite Z.pow_0_r, Z.mul_1_r in H.
    destruct (Z.leb_spec 0 e) as [_|?]; [|lia].
    assert (0 < 2 ^ e)%Z as Hpe by (apply Z.pow_pos_nonneg; lia).
    destruct (Z.leb_spec (2 ^ 1024) (round_half_even a (b * 2 ^ e) * 2 ^ e)); [discriminate|].
    injection H as <-. exists e, (round_half_even a (b * 2 ^ e)). split; [exact He|]. split; [split; [nia|exact Hu]|]. split; [reflexivity|].
    clear Hu. generalize dependent (2 ^ e)%Z. intros P _ HP _. clear He0 He Hge. clearbody e. clear e e0.
    pose proof (Z.div_mod a (b * P) ltac:(nia)) as D. pose proof (Z.mod_pos_bound a (b * P) ltac:(nia)) as M.
    assert (Hm2 : (b * (a / (b * P) * P - q) = - (a mod (b * P)))%Z) by nia.
    unfold round_half_even. set (Q := (a / (b * P))%Z) in *. set (r := (a mod (b * P))%Z) in *. clearbody Q r.
    destruct (Z.compare_spec (2 * r) (b * P)) as [Hc|Hc|Hc].
    - destruct (Z.even Q) eqn:Eq.
      + split; [|intros; exact Eq]. destruct (Z.abs_spec (Q * P - q)) as [[? ->]|[? ->]]; nia.
      + split; [|intros; now rewrite Z.add_1_r, Z.even_succ, <- Z.negb_even, Eq]. destruct (Z.abs_spec ((Q + 1) * P - q)) as [[? ->]|[? ->]]; nia.
    - assert (2 * Z.abs (Q * P - q) < P)%Z; [destruct (Z.abs_spec (Q * P - q)) as [[? ->]|[? ->]]; nia|]. split; [lia|intros; lia].
    - assert (2 * Z.abs ((Q + 1) * P - q) < P)%Z; [destruct (Z.abs_spec ((Q + 1) * P - q)) as [[? ->]|[? ->]]; nia|]. split; [lia|intros; lia].
  Qed.
End TrueDiv.

Lemma choose_lower n : forall k, 1 <= k -> k < n -> n <= choose n k.
Proof.
  induction n as [|n IH]; intros k H1 H2; [lia|]. destruct k as [|k]; [lia|]. cbn [choose].
  destruct (Nat.eq_dec k 0) as [->|Hk0].
  - rewrite choose_0. destruct (Nat.eq_dec n 1) as [->|]; [reflexivity|].
    pose proof (IH 1 ltac:(lia) ltac:(lia)). lia.
  - pose proof (IH k ltac:(lia) ltac:(lia)). 
    pose proof (choose_pos n (S k) ltac:(lia)). lia.
Qed.

(** Everything the constructor guarantees about the object. *)
Lemma make_cv_inv groups tests p e emb c : make_cv groups tests p e emb = Ok c ->
  (1 <= tests <= groups - 1)%Z /\ (0 <= emb)%Z /\
  n_groups c = Z.to_nat groups /\ n_test_splits c = Z.to_nat tests /\
  p = Some (pred_times c) /\ e = Some (eval_times c) /\ embargo_td c = emb /\
  int_truediv (factZ (n_groups c)) (factZ (n_test_splits c) * factZ (n_groups c - n_test_splits c)) = Ok (n_splits c).
Proof.
  unfold make_cv, factorial. intros H.
  destruct (Z.ltb_spec groups 0); [discriminate|].
  destruct (Z.ltb_spec tests 0); [discriminate|].
  destruct (Z.ltb_spec (groups - tests) 0); [discriminate|]. cbn [bind] in H.
  destruct (int_truediv _ _) as [ns|] eqn:Ens; cbn [bind] in H; [|discriminate].
  destruct (Z.leb_spec ns 1); [discriminate|].
  destruct p as [p|]; [|discriminate]. destruct e as [e|]; [|discriminate].
  destruct ((tests <=? 0) || (groups - 1 <? tests))%Z eqn:Et; [discriminate|].
  destruct (Z.ltb_spec emb 0); [discriminate|]. inversion H; subst. cbn [n_groups n_test_splits pred_times eval_times embargo_td n_splits].
  replace (Z.to_nat groups - Z.to_nat tests) with (Z.to_nat (groups - tests)) by lia.
  repeat split; auto; lia.
Qed.

Lemma reported_number groups tests pred ev emb c : make_cv groups tests (Some pred) (Some ev) emb = Ok c ->
  let C := Z.of_nat (choose (Z.to_nat groups) (Z.to_nat tests)) in
  ((C < 2 ^ 53)%Z -> n_splits c = C) /\ ((2 ^ 53 <= C)%Z -> nearest_double C (n_splits c)).
Proof.
  intros H C. destruct (make_cv_inv _ _ _ _ _ _ H) as (Ht & _ & Eg & Et & _ & _ & _ & Hd). rewrite Eg, Et in Hd.
  destruct (choose_fact_div (Z.to_nat groups) (Z.to_nat tests) ltac:(lia)) as [_ Hf].
  pose proof (choose_pos (Z.to_nat groups) (Z.to_nat tests) ltac:(lia)) as Hp.
  pose proof (factZ_pos (Z.to_nat tests)) as P1. pose proof (factZ_pos (Z.to_nat groups - Z.to_nat tests)) as P2.
  assert (0 < factZ (Z.to_nat tests) * factZ (Z.to_nat groups - Z.to_nat tests))%Z as P by nia. split; intros Hc.
  - rewrite (int_truediv_exact _ _ C P ltac:(lia) Hf Hc) in Hd. congruence.
  - exact (int_truediv_near _ _ C P ltac:(lia) Hf _ Hc Hd).
Qed.

Lemma make_cv_accepts groups tests p e emb : (1 <= tests <= groups - 1)%Z -> (0 <= emb)%Z ->
  (exists ns, int_truediv (factZ (Z.to_nat groups)) (factZ (Z.to_nat tests) * factZ (Z.to_nat groups - Z.to_nat tests)) = Ok ns) ->
  exists c, make_cv groups tests (Some p) (Some e) emb = Ok c.
Proof.
  intros Ht He (ns & Hns). unfold make_cv, factorial.
  destruct (Z.ltb_spec groups 0); [lia|]. destruct (Z.ltb_spec tests 0); [lia|].
  destruct (Z.ltb_spec (groups - tests) 0); [lia|]. cbn [bind].
  replace (Z.to_nat groups - Z.to_nat tests) with (Z.to_nat (groups - tests)) in Hns by lia.
  rewrite Hns. cbn [bind].
  destruct (Z.leb_spec ns 1) as [Hle|_].
  - exfalso. set (N := Z.to_nat groups) in *. set (k := Z.to_nat tests) in *.
    replace (Z.to_nat (groups - tests)) with (N - k) in Hns by (unfold N, k; lia).
    destruct (choose_fact_div N k ltac:(lia)) as [_ Hf].
    pose proof (choose_lower N k ltac:(lia) ltac:(lia)) as Hl.
    pose proof (factZ_pos k) as P1. pose proof (factZ_pos (N - k)) as P2.
    assert (0 < factZ k * factZ (N - k))%Z as P by nia.
    destruct (Z.lt_ge_cases (Z.of_nat (choose N k)) (2 ^ 53)) as [Hs|Hs].
    + rewrite (int_truediv_exact _ _ (Z.of_nat (choose N k)) P ltac:(lia) Hf Hs) in Hns. inversion Hns. lia.
    + pose proof (int_truediv_large _ _ (Z.of_nat (choose N k)) P ltac:(lia) Hf ns Hs Hns).
      assert (1 < 2 ^ 53)%Z by reflexivity. lia.
  - destruct ((tests <=? 0) || (groups - 1 <? tests))%Z eqn:Et; [lia|].
    destruct (Z.ltb_spec emb 0); [lia|]. eauto.
Qed.

(** Which exceptions the constructor can raise. *)
Lemma make_cv_err groups tests p e emb x : make_cv groups tests p e emb = Err x ->
  x = ValueError \/ x = OverflowError.
Proof.
  unfold make_cv, factorial.
  destruct (Z.ltb_spec groups 0); [intros H'; inversion H'; auto|].
  destruct (Z.ltb_spec tests 0); [intros H'; inversion H'; auto|].
  destruct (Z.ltb_spec (groups - tests) 0); [intros H'; inversion H'; auto|]. cbn [bind].
  destruct (int_truediv _ _) as [ns|y] eqn:Ens; cbn [bind].
  - destruct (Z.leb_spec ns 1); [intros H'; inversion H'; auto|].
    destruct p as [p|]; [|intros H'; inversion H'; auto]. destruct e as [e|]; [|intros H'; inversion H'; auto].
    destruct ((tests <=? 0) || (groups - 1 <? tests))%Z eqn:Et; [intros H'; inversion H'; auto|].
    destruct (Z.ltb_spec emb 0); intros H'; inversion H'; auto.
  - intros H'. inversion H'; subst. unfold int_truediv in Ens.
    destruct (_ =? 0)%Z in Ens; [discriminate|]. cbv zeta in Ens.
    match type of Ens with (if ?c then _ else _) = _ => destruct c end; inversion Ens; auto.
Qed.
