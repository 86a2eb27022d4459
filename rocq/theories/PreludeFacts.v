(** General lemmas about the vocabulary of Prelude. *)
From Coq Require Export Permutation.
From Verif Require Export Prelude.


Lemma mem_In x l : mem x l = true <-> In x l.
Proof.
  unfold mem. rewrite existsb_exists. split.
  - intros (y & Hy & He). apply Nat.eqb_eq in He. subst. exact Hy.
  - intros H. exists x. split; [exact H | apply Nat.eqb_refl].
Qed.

Lemma memZ_In x l : memZ x l = true <-> In x l.
Proof.
  unfold memZ. rewrite existsb_exists. split.
  - intros (y & Hy & He). apply Z.eqb_eq in He. subst. exact Hy.
  - intros H. exists x. split; [exact H | apply Z.eqb_refl].
Qed.

Section SU.
  Context {A : Type} (cmp : A -> A -> comparison) (R : A -> A -> Prop).
  Hypothesis cmp_spec : forall x y, CompareSpec (x = y) (R x y) (R y x) (cmp x y).
  Hypothesis R_trans : forall x y z, R x y -> R y z -> R x z.

  Lemma insert_u_In x y l : In y (insert_u cmp x l) <-> y = x \/ In y l.
  Proof.
    induction l as [|a l IH]; simpl.
    - intuition.
    - destruct (cmp_spec x a) as [He|Hl|Hg]; simpl.
      + subst. intuition.
      + intuition.
      + rewrite IH. intuition.
  Qed.

  Lemma insert_u_sorted x l : StronglySorted R l -> StronglySorted R (insert_u cmp x l).
  Proof.
    induction l as [|a l IH]; simpl; intros H.
    - repeat constructor.
    - inversion H as [|? ? Hs Hf]; subst.
      destruct (cmp_spec x a) as [He|Hl|Hg].
      + exact H.
      + constructor; [exact H|]. constructor; [exact Hl|].
        rewrite Forall_forall in *. intros z Hz. eapply R_trans; [exact Hl|]. apply Hf, Hz.
      + constructor; [apply IH, Hs|].
        rewrite Forall_forall in *. intros z Hz. apply insert_u_In in Hz. destruct Hz as [->|Hz]; auto.
  Qed.

  Lemma sort_unique_In x l : In x (sort_unique cmp l) <-> In x l.
  Proof.
    induction l as [|a l IH]; simpl; [tauto|].
    fold (sort_unique cmp l). rewrite insert_u_In, IH. intuition.
  Qed.

  Lemma sort_unique_sorted l : StronglySorted R (sort_unique cmp l).
  Proof.
    induction l as [|a l IH]; simpl; [constructor|]. apply insert_u_sorted, IH.
  Qed.

  Hypothesis R_irrefl : forall x, ~ R x x.

  Lemma sorted_ext l1 : forall l2, StronglySorted R l1 -> StronglySorted R l2 ->
    (forall x, In x l1 <-> In x l2) -> l1 = l2.
  Proof.
    induction l1 as [|a l1 IH]; intros l2 H1 H2 Heq.
    - destruct l2 as [|b l2]; [reflexivity|]. exfalso. apply (proj2 (Heq b)). now left.
    - destruct l2 as [|b l2]; [exfalso; apply (proj1 (Heq a)); now left|].
      inversion H1 as [|? ? Hs1 Hf1]; subst. inversion H2 as [|? ? Hs2 Hf2]; subst.
      rewrite Forall_forall in Hf1, Hf2.
      assert (a = b) as ->.
      { destruct (proj1 (Heq a) (or_introl eq_refl)) as [->|Ha]; [reflexivity|].
        destruct (proj2 (Heq b) (or_introl eq_refl)) as [->|Hb]; [reflexivity|].
        exfalso. apply (R_irrefl a). eapply R_trans; [apply Hf1, Hb | apply Hf2, Ha]. }
      f_equal. apply IH; auto. intros x. specialize (Heq x). simpl in Heq.
      split; intros Hx.
      + destruct (proj1 Heq (or_intror Hx)) as [<-|H]; [|exact H].
        exfalso. apply (R_irrefl b). apply Hf1, Hx.
      + destruct (proj2 Heq (or_intror Hx)) as [<-|H]; [|exact H].
        exfalso. apply (R_irrefl b). apply Hf2, Hx.
  Qed.

  Lemma sorted_NoDup l : StronglySorted R l -> NoDup l.
  Proof.
    induction 1 as [|a l Hs IH Hf]; constructor; auto.
    rewrite Forall_forall in Hf. intros H. apply (R_irrefl a), Hf, H.
  Qed.
End SU.

Lemma np_unique_In x l : In x (np_unique l) <-> In x l.
Proof. apply (sort_unique_In Nat.compare lt Nat.compare_spec). Qed.
Lemma np_unique_inc l : increasing (np_unique l).
Proof. apply (sort_unique_sorted Nat.compare lt Nat.compare_spec Nat.lt_trans). Qed.
Lemma np_uniqueZ_In x l : In x (np_uniqueZ l) <-> In x l.
Proof. apply (sort_unique_In Z.compare Z.lt Z.compare_spec). Qed.
Lemma np_uniqueZ_inc l : increasingZ (np_uniqueZ l).
Proof. apply (sort_unique_sorted Z.compare Z.lt Z.compare_spec Z.lt_trans). Qed.
Lemma increasing_ext l1 l2 : increasing l1 -> increasing l2 -> (forall x, In x l1 <-> In x l2) -> l1 = l2.
Proof. apply (sorted_ext lt Nat.lt_trans Nat.lt_irrefl). Qed.
Lemma increasingZ_ext l1 l2 : increasingZ l1 -> increasingZ l2 -> (forall x, In x l1 <-> In x l2) -> l1 = l2.
Proof. apply (sorted_ext Z.lt Z.lt_trans Z.lt_irrefl). Qed.
Lemma increasing_NoDup l : increasing l -> NoDup l.
Proof. apply (sorted_NoDup lt Nat.lt_irrefl). Qed.
Lemma increasingZ_NoDup l : increasingZ l -> NoDup l.
Proof. apply (sorted_NoDup Z.lt Z.lt_irrefl). Qed.

Lemma union1d_In x a b : In x (union1d a b) <-> In x a \/ In x b.
Proof. unfold union1d. rewrite np_unique_In, in_app_iff. tauto. Qed.
Lemma intersect1d_In x a b : In x (intersect1d a b) <-> In x a /\ In x b.
Proof. unfold intersect1d. rewrite np_unique_In, filter_In, mem_In. tauto. Qed.
Lemma setdiff1d_In x a b : In x (setdiff1d a b) <-> In x a /\ ~ In x b.
Proof.
  unfold setdiff1d. rewrite np_unique_In, filter_In, negb_true_iff.
  pose proof (mem_In x b) as Hm. destruct (mem x b); intuition congruence.
Qed.

Lemma SS_app {A} (R : A -> A -> Prop) l1 l2 :
  StronglySorted R (l1 ++ l2) <->
  StronglySorted R l1 /\ StronglySorted R l2 /\ (forall x y, In x l1 -> In y l2 -> R x y).
Proof.
  induction l1 as [|a l1 IH]; simpl.
  - split; [intros H; split; [constructor|split; [exact H|tauto]] | tauto].
  - split.
    + intros H. inversion H as [|? ? Hs Hf]; subst. apply IH in Hs. destruct Hs as (H1 & H2 & H3).
      rewrite Forall_app in Hf. destruct Hf as [Hf1 Hf2]. rewrite Forall_forall in Hf2.
      split; [constructor; auto|split; [exact H2|]]. intros x y [<-|Hx] Hy; auto.
    + intros (H1 & H2 & H3). inversion H1 as [|? ? Hs Hf]; subst. constructor.
      * apply IH. split; [exact Hs|split; [exact H2|]]. intros; apply H3; auto.
      * rewrite Forall_app. split; [exact Hf|]. rewrite Forall_forall. intros y Hy. apply H3; auto.
Qed.

Lemma increasing_seq a n : increasing (seq a n).
Proof.
  revert a. induction n as [|n IH]; intros a; simpl; constructor; [apply IH|].
  rewrite Forall_forall. intros x Hx. apply in_seq in Hx. lia.
Qed.

Lemma skipn_seq k a n : skipn k (seq a n) = seq (a + k) (n - k).
Proof.
  revert a n. induction k as [|k IH]; intros a n; simpl.
  - now rewrite Nat.add_0_r, Nat.sub_0_r.
  - destruct n as [|n]; simpl; [reflexivity|]. rewrite IH. f_equal. lia.
Qed.
Lemma firstn_seq k a n : firstn k (seq a n) = seq a (Nat.min k n).
Proof.
  revert a n. induction k as [|k IH]; intros a n; simpl; [reflexivity|].
  destruct n as [|n]; simpl; [reflexivity|]. now rewrite IH.
Qed.
Lemma slice_seq_In i s e n : In i (slice s e (seq 0 n)) <-> s <= i < e /\ i < n.
Proof. unfold slice. rewrite skipn_seq, firstn_seq, in_seq. lia. Qed.

Lemma mapM_Ok {A B} (f : A -> result B) l ys :
  mapM f l = Ok ys <-> Forall2 (fun x y => f x = Ok y) l ys.
Proof.
  revert ys. induction l as [|x l IH]; intros ys; simpl.
  - split; [intros H; inversion H; constructor | intros H; inversion H; reflexivity].
  - split.
    + destruct (f x) as [y|] eqn:E; simpl; [|discriminate].
      destruct (mapM f l) as [zs|] eqn:E2; simpl; [|discriminate].
      intros H; inversion H; subst. constructor; [exact E|]. now apply IH.
    + intros H; inversion H as [|? y ? zs Hy Hz]; subst. rewrite Hy. simpl.
      apply IH in Hz. rewrite Hz. reflexivity.
Qed.

Lemma mapM_ok_map {A B} (f : A -> result B) (g : A -> B) l :
  (forall x, In x l -> f x = Ok (g x)) -> mapM f l = Ok (map g l).
Proof.
  intros H. apply mapM_Ok. induction l as [|x l IH]; simpl; constructor.
  - apply H. now left.
  - apply IH. intros y Hy. apply H. now right.
Qed.

Lemma Forall2_len {A B} (R : A -> B -> Prop) l1 l2 : Forall2 R l1 l2 -> length l1 = length l2.
Proof. induction 1; simpl; congruence. Qed.

Lemma mapM_length {A B} (f : A -> result B) l ys : mapM f l = Ok ys -> length ys = length l.
Proof. intros H. apply mapM_Ok in H. symmetry. eapply Forall2_len; eauto. Qed.

Lemma mapM_In {A B} (f : A -> result B) l ys y :
  mapM f l = Ok ys -> In y ys -> exists x, In x l /\ f x = Ok y.
Proof.
  intros H. apply mapM_Ok in H. revert y. induction H as [|x z l ys Hx H IH]; simpl; [tauto|].
  intros y [<-|Hy].
  - exists x. auto.
  - destruct (IH y Hy) as (x' & ? & ?). exists x'. auto.
Qed.
Lemma mapM_In_r {A B} (f : A -> result B) l ys x :
  mapM f l = Ok ys -> In x l -> exists y, In y ys /\ f x = Ok y.
Proof.
  intros H. apply mapM_Ok in H. revert x. induction H as [|z y l ys Hx H IH]; simpl; [tauto|].
  intros x [<-|Hy].
  - exists y. auto.
  - destruct (IH x Hy) as (y' & ? & ?). exists y'. auto.
Qed.
Lemma mapM_nth {A B} (f : A -> result B) l ys i x :
  mapM f l = Ok ys -> nth_error l i = Some x -> exists y, nth_error ys i = Some y /\ f x = Ok y.
Proof.
  intros H. apply mapM_Ok in H. revert i. induction H as [|z y l ys Hx H IH]; intros i Hi.
  - destruct i; discriminate.
  - destruct i as [|i]; simpl in *.
    + inversion Hi; subst. eauto.
    + apply IH, Hi.
Qed.

Lemma get_Ok {A} (l : list A) i a : get l i = Ok a <-> nth_error l i = Some a.
Proof. unfold get. destruct (nth_error l i); split; intros H; inversion H; reflexivity. Qed.
Lemma get_lt {A} (l : list A) i : i < length l -> exists a, get l i = Ok a /\ nth_error l i = Some a.
Proof.
  intros H. unfold get. destruct (nth_error l i) eqn:E; eauto.
  apply nth_error_None in E. lia.
Qed.

Lemma mask_sel_In {A} (l : list A) m x : length l = length m ->
  In x (mask_sel l m) <-> exists i, nth_error l i = Some x /\ nth_error m i = Some true.
Proof.
  revert m. induction l as [|a l IH]; intros m Hlen; destruct m as [|b m]; try discriminate; simpl.
  - split; [tauto|]. intros (i & H & _). destruct i; discriminate.
  - injection Hlen as Hlen. specialize (IH m Hlen). destruct b; simpl.
    + rewrite IH. split.
      * intros [<-|(i & H1 & H2)]; [exists 0; auto | exists (S i); auto].
      * intros (i & H1 & H2). destruct i as [|i]; simpl in *; [left; congruence | right; eauto].
    + rewrite IH. split.
      * intros (i & H1 & H2). exists (S i). auto.
      * intros (i & H1 & H2). destruct i as [|i]; simpl in *; [discriminate | eauto].
Qed.

Lemma nth_error_seq i a n x : nth_error (seq a n) i = Some x <-> i < n /\ x = a + i.
Proof.
  revert a i. induction n as [|n IH]; intros a i; simpl.
  - destruct i; simpl; split; intros H; try discriminate; lia.
  - destruct i as [|i]; simpl.
    + split; [intros H; inversion H; lia | intros [_ ->]; f_equal; lia].
    + rewrite IH. lia.
Qed.

Lemma Forall2_nth {A B} (R : A -> B -> Prop) l1 l2 i x :
  Forall2 R l1 l2 -> nth_error l1 i = Some x -> exists y, nth_error l2 i = Some y /\ R x y.
Proof.
  intros H. revert i. induction H as [|a b l1 l2 Hab H IH]; intros i Hi; [destruct i; discriminate|].
  destruct i as [|i]; simpl in *; [inversion Hi; subst; eauto | eauto].
Qed.

Lemma filter_length_split {A} (f : A -> bool) l :
  length (filter f l) + length (filter (fun x => negb (f x)) l) = length l.
Proof. induction l as [|x l IH]; simpl; [reflexivity|]. destruct (f x); simpl; lia. Qed.

Lemma NoDup_app_iff {A} (l1 l2 : list A) :
  NoDup (l1 ++ l2) <-> NoDup l1 /\ NoDup l2 /\ (forall x, In x l1 -> In x l2 -> False).
Proof.
  induction l1 as [|a l1 IH]; simpl.
  - split; [intros H; split; [constructor|split; [exact H|tauto]] | tauto].
  - split.
    + intros H; inversion H as [|? ? Hn Hd]; subst. apply IH in Hd. destruct Hd as (H1 & H2 & H3).
      rewrite in_app_iff in Hn. split; [constructor; tauto|split; [exact H2|]].
      intros x [<-|Hx] Hy; [tauto|eauto].
    + intros (H1 & H2 & H3). inversion H1; subst. constructor.
      * rewrite in_app_iff. intros [?|?]; [tauto|eauto].
      * apply IH. split; [assumption|split; [exact H2|eauto]].
Qed.
