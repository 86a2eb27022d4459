(** Proofs about the cross-validation model, continued: whole splits and backtest paths. *)
From Coq Require Import Sorting.Sorted Permutation.
From Verif Require Import PreludeFacts CV_Spec CV_Model CV_Proofs.
From Coq Require Import ZifyBool ZifyNat.
Local Ltac Zify.zify_post_hook ::= Z.div_mod_to_equations.

Definition in_groups (n N : nat) (G : list nat) (i : nat) : Prop :=
  exists g, In g G /\ gstart n N g <= i < gstart n N (S g).

Definition split_rel (c : cv) (n : nat) (G : list nat) (sp : list nat * list nat) : Prop :=
  let (train, test) := sp in
  snd (compute_test_set n (map (gbound n (n_groups c)) G)) = test /\
  increasing test /\ (forall i, In i test <-> in_groups n (n_groups c) G i) /\
  (forall i, In i train <-> i < n /\ ~ In i test /\
     forall s e, maximal_block test s e -> purge_pred c s e i /\ embargo_pred c n test e i) /\
  (ends_after_start (pred_times c) (eval_times c) -> increasing train).

Definition data_ok (c : cv) (n : nat) : Prop :=
  length (pred_times c) = n /\ length (eval_times c) = n /\ non_decreasing (pred_times c).
Definition params_ok (c : cv) (n : nat) : Prop :=
  1 <= n_test_splits c /\ n_test_splits c < n_groups c /\ n_groups c <= n.

Definition group_choices (c : cv) : list (list nat) :=
  rev (combinations (n_test_splits c) (seq 0 (n_groups c))).

Lemma group_choices_In c G : In G (group_choices c) <-> group_choice (n_groups c) (n_test_splits c) G.
Proof.
  unfold group_choices, group_choice. rewrite <- in_rev. split.
  - intros H. pose proof (combinations_elem _ _ _ H) as [Hl Hi].
    split; [|split; [exact Hl|]].
    + eapply combinations_sorted; [apply increasing_seq|exact H].
    + intros x Hx. apply Hi, in_seq in Hx. lia.
  - intros (H1 & H2 & H3). apply combinations_complete; auto; [apply increasing_seq|].
    intros x Hx. apply in_seq. specialize (H3 x Hx). lia.
Qed.

Lemma group_choices_length c : length (group_choices c) = choose (n_groups c) (n_test_splits c).
Proof. unfold group_choices. now rewrite rev_length, combinations_length, seq_length. Qed.

Lemma group_choices_NoDup c : NoDup (group_choices c).
Proof. unfold group_choices. apply NoDup_rev, combinations_NoDup, seq_NoDup. Qed.

Lemma test_fold_bounds_ok c n : params_ok c n ->
  test_fold_bounds c n = Ok (map (map (gbound n (n_groups c))) (group_choices c)).
Proof.
  intros (H1 & H2 & H3). unfold test_fold_bounds. rewrite fold_bounds_ok by lia. cbn [bind].
  rewrite combinations_map. unfold group_choices. now rewrite map_rev.
Qed.

Lemma mapM_map {A B C} (f : B -> result C) (g : A -> B) l : mapM f (map g l) = mapM (fun x => f (g x)) l.
Proof. induction l as [|x l IH]; simpl; auto. now rewrite IH. Qed.

Lemma mapM_Forall2_exists {A B} (f : A -> result B) (R : A -> B -> Prop) l :
  (forall x, In x l -> exists y, f x = Ok y /\ R x y) ->
  exists ys, mapM f l = Ok ys /\ Forall2 R l ys.
Proof.
  induction l as [|x l IH]; intros H; simpl.
  - exists []. auto.
  - destruct (H x (or_introl eq_refl)) as (y & Hy & HR). rewrite Hy. cbn [bind].
    destruct IH as (ys & -> & HF); [intros; apply H; now right|]. cbn [bind]. exists (y :: ys). auto.
Qed.

Lemma split_ok c n : params_ok c n -> data_ok c n ->
  exists ss, split c n = Ok ss /\ Forall2 (split_rel c n) (group_choices c) ss.
Proof.
  intros Hpar (Hp & He & Hs). unfold split. rewrite test_fold_bounds_ok by exact Hpar. cbn [bind].
  rewrite mapM_map. apply mapM_Forall2_exists. intros G HG. apply group_choices_In in HG.
  destruct HG as (HGi & HGl & HGk). destruct Hpar as (H1 & H2 & H3).
  destruct (compute_test_set n (map (gbound n (n_groups c)) G)) as [bounds test] eqn:E.
  destruct (compute_test_set_spec n (n_groups c) G bounds test ltac:(lia) H3 HGi HGk E) as (T1 & T2 & T3).
  assert (forall i, In i test -> i < n) as Htest.
  { intros i Hi. apply T2 in Hi. apply (test_set_lt n (n_groups c) G i); auto; lia. }
  unfold compute_train_set.
  destruct (train_loop c n test bounds (setdiff1d (indices n) test) Hp He Hs Htest) as (r & Hr & Hin & Hinc).
  - intros i Hi. apply setdiff1d_In in Hi. unfold indices in Hi. rewrite in_seq in Hi. lia.
  - intros s e Hse. apply T3 in Hse. destruct Hse as (Hlt & Hall & _). apply Htest, Hall. lia.
  - rewrite Hr. cbn [bind]. eexists. split; [reflexivity|]. simpl. rewrite E. split; [reflexivity|].
    split; [exact T1|split; [exact T2|split]].
    + intros i. rewrite Hin, setdiff1d_In. unfold indices. rewrite in_seq.
      split.
      * intros [[Hi Hni] Hall]. split; [lia|split; [exact Hni|]]. intros s e Hse. apply Hall, T3, Hse.
      * intros (Hi & Hni & Hall). split; [split; [lia|exact Hni]|]. intros s e Hse. apply Hall, T3, Hse.
    + intros Hea. apply Hinc; auto.
      * apply np_unique_inc.
      * intros s e Hse. apply T3 in Hse. apply Hse.
Qed.

Lemma Forall2_In_r {A B} (R : A -> B -> Prop) l1 l2 y :
  Forall2 R l1 l2 -> In y l2 -> exists x, In x l1 /\ R x y.
Proof.
  induction 1 as [|a b l1 l2 Hab H IH]; intros Hy; [destruct Hy|].
  destruct Hy as [<-|Hy]; [exists a; auto with datatypes|].
  destruct (IH Hy) as (x & Hx & HR). exists x. auto with datatypes.
Qed.
Lemma Forall2_In_l {A B} (R : A -> B -> Prop) l1 l2 x :
  Forall2 R l1 l2 -> In x l1 -> exists y, In y l2 /\ R x y.
Proof.
  induction 1 as [|a b l1 l2 Hab H IH]; intros Hx; [destruct Hx|].
  destruct Hx as [<-|Hx]; [exists b; auto with datatypes|].
  destruct (IH Hx) as (y & Hy & HR). exists y. auto with datatypes.
Qed.

Lemma in_groups_mem n N G g i : N <> 0 -> N <= n -> gstart n N g <= i < gstart n N (S g) ->
  in_groups n N G i <-> In g G.
Proof.
  intros HN Hn Hg. split.
  - intros (g' & Hg' & Hi). rewrite (group_unique n N i g g'); auto.
  - intros H. exists g. auto.
Qed.

Lemma in_groups_inj n N G G' : N <> 0 -> N <= n -> increasing G -> increasing G' ->
  (forall i, in_groups n N G i <-> in_groups n N G' i) -> G = G'.
Proof.
  intros HN Hn HG HG' H. apply increasing_ext; auto. intros g.
  pose proof (gstart_step n N g HN Hn) as Hst.
  rewrite <- (in_groups_mem n N G g (gstart n N g)) by (auto; lia).
  rewrite <- (in_groups_mem n N G' g (gstart n N g)) by (auto; lia). apply H.
Qed.

Lemma test_sets_NoDup c n Gs ss : n_groups c <> 0 -> n_groups c <= n ->
  (forall G, In G Gs -> increasing G) -> NoDup Gs ->
  Forall2 (split_rel c n) Gs ss -> NoDup (map snd ss).
Proof.
  intros HN Hn Hinc Hd HF. induction HF as [|G sp Gs ss HR HF IH]; simpl; [constructor|].
  inversion Hd as [|? ? Hni Hd']; subst. constructor.
  - intros Hin. apply in_map_iff in Hin. destruct Hin as (sp' & Heq & Hsp').
    destruct (Forall2_In_r _ _ _ _ HF Hsp') as (G' & HG' & HR').
    apply Hni. replace G with G'; [exact HG'|].
    destruct sp as [tr te], sp' as [tr' te']. simpl in *. subst te'.
    apply (in_groups_inj n (n_groups c)); auto with datatypes.
    intros i. destruct HR as (_ & _ & HR & _), HR' as (_ & _ & HR' & _). rewrite <- HR, <- HR'. tauto.
  - apply IH; auto. intros; apply Hinc; now right.
Qed.

Lemma count_splits c n Gs ss i g : n_groups c <> 0 -> n_groups c <= n ->
  gstart n (n_groups c) g <= i < gstart n (n_groups c) (S g) ->
  Forall2 (split_rel c n) Gs ss ->
  length (filter (fun sp => mem i (snd sp)) ss) = length (filter (mem g) Gs).
Proof.
  intros HN Hn Hg HF. induction HF as [|G sp Gs ss HR HF IH]; simpl; [reflexivity|].
  assert (mem i (snd sp) = mem g G) as ->.
  { apply eq_true_iff_eq. rewrite !mem_In. destruct sp as [tr te]. destruct HR as (_ & _ & HR & _). simpl.
    rewrite HR. apply in_groups_mem; auto. }
  destruct (mem g G); simpl; congruence.
Qed.

Lemma filter_rev_len {A} (f : A -> bool) l : length (filter f (rev l)) = length (filter f l).
Proof.
  induction l as [|x l IH]; simpl; auto. rewrite filter_app_len, IH. simpl. destruct (f x); simpl; lia.
Qed.

Lemma group_choices_count c g : 1 <= n_test_splits c -> g < n_groups c ->
  length (filter (mem g) (group_choices c)) = choose (n_groups c - 1) (n_test_splits c - 1).
Proof.
  intros H1 Hg. unfold group_choices. rewrite filter_rev_len.
  replace (n_test_splits c) with (S (n_test_splits c - 1)) at 1 by lia.
  rewrite combinations_count; [now rewrite seq_length|apply seq_NoDup|apply in_seq; lia].
Qed.

(** * The number of paths *)

Lemma choose_step n : forall m, (Z.of_nat (choose n (S m)) * Z.of_nat (S m) = Z.of_nat (choose n m) * (Z.of_nat n - Z.of_nat m))%Z.
Proof.
  induction n as [|n IH]; intros m.
  - destruct m; simpl choose; lia.
  - destruct m as [|m].
    + cbn [choose]. rewrite choose_0. pose proof (IH 0) as H. rewrite choose_0 in H. lia.
    + cbn [choose]. pose proof (IH m) as H1. pose proof (IH (S m)) as H2.
      rewrite !Nat2Z.inj_add. 
      replace (Z.of_nat (S n) - Z.of_nat (S m))%Z with (Z.of_nat n - Z.of_nat m)%Z by lia.
      rewrite !Nat2Z.inj_succ in *. lia.
Qed.

Lemma den_spec (ns : nat) m : 1 <= ns ->
  fold_left (fun d i => d * (Z.of_nat ns - Z.of_nat i))%Z (seq 1 m) 1%Z =
  (Z.of_nat (choose (ns - 1) m) * factZ m)%Z.
Proof.
  intros Hns. induction m as [|m IH].
  - rewrite choose_0. reflexivity.
  - rewrite seq_S, fold_left_app, IH. cbn [fold_left]. cbn [factZ].
    pose proof (choose_step (ns - 1) m) as H.
    replace (Z.of_nat (ns - 1) - Z.of_nat m)%Z with (Z.of_nat ns - Z.of_nat (1 + m))%Z in H by lia.
    set (x := (Z.of_nat ns - Z.of_nat (1 + m))%Z) in *. clearbody x.
    replace (Z.of_nat (choose (ns - 1) m) * factZ m * x)%Z with (factZ m * (Z.of_nat (choose (ns - 1) m) * x))%Z by ring.
    rewrite <- H. ring.
Qed.

Lemma paths_count_eq (ns k : nat) : 1 <= ns -> 1 <= k ->
  compute_back_test_paths (Z.of_nat ns) k =
  int_truediv (Z.of_nat (choose (ns - 1) (k - 1)) * factZ (k - 1)) (factZ (k - 1)).
Proof.
  intros H1 H2. unfold compute_back_test_paths, factorial. rewrite den_spec by exact H1.
  destruct (Z.ltb_spec (Z.of_nat k - 1) 0); [lia|]. cbn [bind].
  replace (Z.to_nat (Z.of_nat k - 1)) with (k - 1) by lia. reflexivity.
Qed.

Lemma paths_count (ns k : nat) : 1 <= k <= ns -> (Z.of_nat (choose (ns - 1) (k - 1)) < 2 ^ 53)%Z ->
  compute_back_test_paths (Z.of_nat ns) k = Ok (Z.of_nat (choose (ns - 1) (k - 1))).
Proof.
  intros Hk Hlt. rewrite paths_count_eq by lia.
  apply int_truediv_exact; auto; [apply factZ_pos|]. pose proof (choose_pos (ns - 1) (k - 1)). lia.
Qed.

Lemma choose_gt n : forall k, 2 <= k -> k + 2 <= n -> n < choose n k.
Proof.
  intros k Hk Hn. destruct n as [|n]; [lia|]. destruct k as [|k]; [lia|]. cbn [choose].
  pose proof (choose_lower n k ltac:(lia) ltac:(lia)). pose proof (choose_lower n (S k) ltac:(lia) ltac:(lia)). lia.
Qed.
Lemma choose_mono_S n m : choose n m <= choose (S n) m.
Proof. destruct m as [|m]; cbn [choose]; [rewrite choose_0; lia|lia]. Qed.
Lemma choose_mono n n' m : n <= n' -> choose n m <= choose n' m.
Proof. intros H. induction H as [|n' H IH]; [lia|]. pose proof (choose_mono_S n' m). lia. Qed.
Lemma choose_strict n n' m : n < n' -> 1 <= m -> m <= n -> choose n m < choose n' m.
Proof.
  intros H H1 H2. pose proof (choose_mono (S n) n' m H) as Hm. destruct m as [|m]; [lia|].
  assert (choose (S n) (S m) = choose n m + choose n (S m)) as E by reflexivity.
  pose proof (choose_pos n m ltac:(lia)). lia.
Qed.

Lemma choose_pred n : 1 <= n -> choose n (n - 1) = n.
Proof.
  induction n as [|n IH]; [lia|]. intros _. replace (S n - 1) with n by lia.
  destruct n as [|n]; [reflexivity|].
  assert (choose (S (S n)) (S n) = choose (S n) n + choose (S n) (S n)) as -> by reflexivity.
  replace n with (S n - 1) at 2 by lia. rewrite choose_n, IH by lia. lia.
Qed.

(** * Path assembly *)

Lemma pop_Ok {A} (l : list A) x r : pop l = Ok (x, r) <-> l = r ++ [x].
Proof.
  unfold pop. split.
  - destruct (rev l) as [|y t] eqn:E; [discriminate|]. intros H; inversion H; subst.
    rewrite <- (rev_involutive l), E. reflexivity.
  - intros ->. rewrite rev_app_distr. simpl. now rewrite rev_involutive.
Qed.
Lemma pop_nonempty {A} (l : list A) : l <> [] -> exists x r, pop l = Ok (x, r) /\ l = r ++ [x].
Proof.
  intros H. destruct (exists_last H) as (r & x & ->). exists x, r. split; [now apply pop_Ok|reflexivity].
Qed.

Section Paths.
  Variable shuf : nat -> nat -> list subtest -> list subtest.
  Hypothesis shuf_perm : forall p k l, Permutation (shuf p k l) l.

  Definition all_len (m : nat) (d : list (nat * list subtest)) : Prop := Forall (fun kl => length (snd kl) = m) d.

  Lemma one_path_ok p d m : all_len (S m) d ->
    exists xs d', one_path (shuf p) d = Ok (xs, d') /\ all_len m d' /\
      Forall2 (fun kl x => In x (snd kl)) d xs /\
      Forall2 (fun kl kl' => fst kl = fst kl' /\ incl (snd kl') (snd kl)) d d' /\
      Permutation (concat (map snd d)) (xs ++ concat (map snd d')).
  Proof.
    induction d as [|[k l] d IH]; intros H.
    - exists [], []. simpl. repeat split; auto; constructor.
    - inversion H as [|? ? Hl Hd]; subst. simpl in Hl. cbn [one_path].
      pose proof (shuf_perm p k l) as HP.
      destruct (pop_nonempty (shuf p k l)) as (x & r & Hpop & Heq).
      { intros E. rewrite E in HP. apply Permutation_nil in HP. subst l. discriminate. }
      rewrite Hpop. cbn [bind fst snd].
      destruct (IH Hd) as (xs & d' & -> & Hd' & HF & HF' & Hperm). cbn [bind fst snd].
      exists (x :: xs), ((k, r) :: d'). rewrite Heq in HP.
      split; [reflexivity|split; [|split; [|split]]].
      + constructor; [|exact Hd']. simpl. apply Permutation_length in HP. rewrite app_length in HP. simpl in HP. lia.
      + constructor; [|exact HF]. simpl. eapply Permutation_in; [exact HP|]. apply in_or_app. simpl. auto.
      + constructor; [|exact HF']. simpl. split; [reflexivity|]. intros y Hy.
        eapply Permutation_in; [exact HP|]. apply in_or_app. auto.
      + simpl. rewrite <- HP, Hperm.
        rewrite (Permutation_app_comm r [x]). simpl. constructor.
        rewrite !app_assoc. apply Permutation_app_tail. apply Permutation_app_comm.
  Qed.

  Lemma one_path_empty p d : d <> [] -> all_len 0 d -> one_path (shuf p) d = Err IndexError.
  Proof.
    destruct d as [|[k l] d]; [congruence|]. intros _ H. inversion H as [|? ? Hl Hd]; subst. simpl in Hl.
    cbn [one_path]. destruct l; [|discriminate].
    pose proof (shuf_perm p k []) as HP. apply Permutation_sym, Permutation_nil in HP. rewrite HP. reflexivity.
  Qed.

  Lemma paths_loop_ok m : forall p d, all_len m d ->
    exists ps, paths_loop shuf p m d = Ok ps /\ length ps = m /\
      Forall (fun xs => Forall2 (fun kl x => In x (snd kl)) d xs) ps /\
      Permutation (concat (map snd d)) (concat ps).
  Proof.
    induction m as [|m IH]; intros p d H; cbn [paths_loop].
    - exists []. repeat split; auto. simpl.
      assert (concat (map snd d) = []) as ->; [|constructor].
      clear - H. induction d as [|[k l] d IH]; simpl; auto. inversion H as [|? ? Hl Hd]; subst.
      destruct l; [|discriminate]. simpl. auto.
    - destruct (one_path_ok p d m H) as (xs & d' & -> & Hd' & HF & HF' & Hperm). cbn [bind fst snd].
      destruct (IH (S p) d' Hd') as (ps & -> & Hlen & HFs & Hperm'). cbn [bind].
      exists (xs :: ps). repeat split.
      + simpl. lia.
      + constructor; [exact HF|]. rewrite Forall_forall in *. intros ys Hys. specialize (HFs ys Hys).
        clear - HF' HFs. revert ys HFs. induction HF' as [|a b d d' [Hk Hi] HF' IH]; intros ys HFs; inversion HFs; subst; constructor; auto.
      + simpl. rewrite Hperm, Hperm'. reflexivity.
  Qed.

  Lemma paths_loop_too_many m : forall p extra d, d <> [] -> all_len m d ->
    paths_loop shuf p (m + S extra) d = Err IndexError.
  Proof.
    induction m as [|m IH]; intros p extra d Hne H.
    - cbn [Nat.add paths_loop]. now rewrite one_path_empty.
    - cbn [Nat.add paths_loop]. destruct (one_path_ok p d m H) as (xs & d' & -> & Hd' & _ & HF' & _). cbn [bind fst snd].
      rewrite IH; [reflexivity| |exact Hd']. intros ->. inversion HF'; subst. congruence.
  Qed.
End Paths.

(** The dictionary of sub tests. *)
Definition dget (d : list (nat * list subtest)) (k : nat) : list subtest :=
  match find (fun kl => Nat.eqb k (fst kl)) d with Some kl => snd kl | None => [] end.

Lemma dict_append_get d k x k' :
  dget (dict_append d k x) k' = if Nat.eqb k' k then dget d k' ++ [x] else dget d k'.
Proof.
  unfold dget. induction d as [|[k0 l0] d IH]; simpl.
  - destruct (Nat.eqb_spec k' k); reflexivity.
  - destruct (Nat.eqb_spec k k0) as [->|Hne]; simpl.
    + destruct (Nat.eqb_spec k' k0); reflexivity.
    + destruct (Nat.eqb_spec k' k0) as [->|Hne']; [|exact IH].
      destruct (Nat.eqb_spec k0 k); [congruence|reflexivity].
Qed.

Lemma dict_append_keys d k x :
  map fst (dict_append d k x) = if mem k (map fst d) then map fst d else map fst d ++ [k].
Proof.
  induction d as [|[k0 l0] d IH]; simpl; [reflexivity|].
  destruct (Nat.eqb_spec k k0) as [->|Hne]; simpl.
  - reflexivity.
  - rewrite IH. fold (mem k (map fst d)). destruct (mem k (map fst d)); reflexivity.
Qed.

Lemma dict_append_keys_NoDup d k x : NoDup (map fst d) -> NoDup (map fst (dict_append d k x)).
Proof.
  intros H. rewrite dict_append_keys. destruct (mem k (map fst d)) eqn:E; [exact H|].
  apply NoDup_app_iff. repeat split; auto.
  - repeat constructor; auto.
  - intros y Hy [<-|[]]. apply mem_In in Hy. congruence.
Qed.

Lemma dict_append_keys_In d k x k' : In k' (map fst (dict_append d k x)) <-> In k' (map fst d) \/ k' = k.
Proof.
  rewrite dict_append_keys. destruct (mem k (map fst d)) eqn:E.
  - apply mem_In in E. split; [tauto|]. intros [?| ->]; assumption.
  - rewrite in_app_iff. simpl. intuition.
Qed.

Section Dict.
  Variables n N : nat.
  Hypothesis HN : N <> 0.
  Hypothesis HNn : N <= n.

  Definition rows (g : nat) : list nat := seq (gstart n N g) (gstart n N (S g) - gstart n N g).

  Lemma gstart_inj g g' : gstart n N g = gstart n N g' -> g = g'.
  Proof.
    intros H. destruct (Nat.lt_trichotomy g g') as [Hl|[He|Hl]]; [|exact He|];
      pose proof (gstart_lt n N _ _ HN HNn Hl); lia.
  Qed.

  Lemma part_rows G test g : increasing test -> (forall i, In i test <-> in_groups n N G i) -> In g G ->
    filter (fun i => Nat.leb (fst (gbound n N g)) i && Nat.ltb i (snd (gbound n N g))) test = rows g.
  Proof.
    intros Hinc Htest Hg. apply increasing_ext.
    - clear - Hinc. induction Hinc as [|a l Hs IH Hf]; simpl; [constructor|].
      destruct (_ && _); [|exact IH]. constructor; [exact IH|]. rewrite Forall_forall in *.
      intros x Hx. apply filter_In in Hx. apply Hf. tauto.
    - apply increasing_seq.
    - intros i. rewrite filter_In, Htest. unfold rows. rewrite in_seq. unfold gbound. cbn [fst snd].
      pose proof (gstart_step n N g HN HNn). split.
      + intros [_ H1]. lia.
      + intros H1. split; [|lia]. exists g. split; [exact Hg|lia].
  Qed.

  Lemma add_split_get idx G test : forall G' d, increasing test -> (forall i, In i test <-> in_groups n N G i) ->
    incl G' G -> NoDup G' -> forall g,
    dget (add_split idx (map (gbound n N) G') test d) (gstart n N g) =
    dget d (gstart n N g) ++ (if mem g G' then [{| st_split := idx; st_rows := rows g |}] else []).
  Proof.
    unfold add_split. induction G' as [|g0 G' IH]; intros d Hinc Htest Hincl Hd g; cbn [map fold_left].
    - simpl. now rewrite app_nil_r.
    - inversion Hd as [|? ? Hni Hd']; subst.
      rewrite IH; auto; [|intros y Hy; apply Hincl; now right].
      rewrite (part_rows G test g0 Hinc Htest) by (apply Hincl; now left).
      rewrite dict_append_get. cbn [gbound fst]. unfold mem at 2. cbn [existsb]. fold (mem g G').
      destruct (Nat.eqb_spec (gstart n N g) (gstart n N g0)) as [He|He].
      + apply gstart_inj in He. subst g0. rewrite Nat.eqb_refl. cbn [orb].
        destruct (mem g G') eqn:E; [apply mem_In in E; tauto|]. now rewrite app_nil_r.
      + destruct (Nat.eqb_spec g g0); [congruence|]. reflexivity.
  Qed.

  Lemma add_split_keys idx test : forall G' d k,
    In k (map fst (add_split idx (map (gbound n N) G') test d)) <->
    In k (map fst d) \/ exists g, In g G' /\ k = gstart n N g.
  Proof.
    unfold add_split. induction G' as [|g0 G' IH]; intros d k; cbn [map fold_left].
    - split; [tauto|]. intros [?|(g & [] & _)]; assumption.
    - rewrite IH, dict_append_keys_In. cbn [gbound fst]. split.
      + intros [[?| ->]|(g & Hg & ->)]; [tauto| |]; right; [exists g0|exists g]; auto with datatypes.
      + intros [?|(g & [<-|Hg] & ->)]; [tauto|tauto|]. right. eauto.
  Qed.

  Lemma add_split_NoDup idx test : forall G' d, NoDup (map fst d) ->
    NoDup (map fst (add_split idx (map (gbound n N) G') test d)).
  Proof.
    unfold add_split. induction G' as [|g0 G' IH]; intros d H; cbn [map fold_left]; auto.
    apply IH, dict_append_keys_NoDup, H.
  Qed.

  (** Sub tests of group g contributed by the splits Gs, numbered from idx. *)
  Fixpoint subtests (idx : nat) (Gs : list (list nat)) (g : nat) : list subtest :=
    match Gs with
    | [] => []
    | G :: r => (if mem g G then [{| st_split := idx; st_rows := rows g |}] else []) ++ subtests (S idx) r g
    end.

  Lemma build_dict_spec Gs tests : forall idx d,
    (forall G, In G Gs -> increasing G) ->
    Forall2 (fun G t => increasing t /\ forall i, In i t <-> in_groups n N G i) Gs tests ->
    NoDup (map fst d) ->
    let d' := build_dict idx (combine (map (map (gbound n N)) Gs) tests) d in
    NoDup (map fst d') /\
    (forall k, In k (map fst d') <-> In k (map fst d) \/ exists g, (exists G, In G Gs /\ In g G) /\ k = gstart n N g) /\
    (forall g, dget d' (gstart n N g) = dget d (gstart n N g) ++ subtests idx Gs g).
  Proof.
    intros idx d HG HF. revert idx d HG.
    induction HF as [|G t Gs tests [Hinc Ht] HF IH]; intros idx d HG Hd; cbn [map combine build_dict].
    - cbv zeta. split; [exact Hd|split].
      + intros k. split; [tauto|]. intros [?|(g & (G & [] & _) & _)]; assumption.
      + intros g. simpl. now rewrite app_nil_r.
    - destruct (IH (S idx) (add_split idx (map (gbound n N) G) t d)) as (R1 & R2 & R3).
      + intros; apply HG; now right.
      + apply add_split_NoDup, Hd.
      + cbv zeta. split; [exact R1|split].
        * intros k. rewrite R2, add_split_keys. split.
          -- intros [[?|(g & Hg & ->)]|(g & (G' & HG' & Hg) & ->)]; [tauto| |]; right.
             ++ exists g. split; [exists G; auto with datatypes|reflexivity].
             ++ exists g. split; [exists G'; auto with datatypes|reflexivity].
          -- intros [?|(g & (G' & [<-|HG'] & Hg) & ->)]; [tauto| |].
             ++ left. right. eauto.
             ++ right. eauto.
        * intros g. rewrite R3, (add_split_get idx G t G d Hinc Ht (incl_refl G)).
          -- cbn [subtests]. now rewrite app_assoc.
          -- apply increasing_NoDup, HG. now left.
  Qed.

  Lemma subtests_length g : forall Gs idx, length (subtests idx Gs g) = length (filter (mem g) Gs).
  Proof.
    clear HN HNn.
    induction Gs as [|G Gs IH]; intros idx; simpl; auto. rewrite app_length, IH. destruct (mem g G); simpl; lia.
  Qed.
  Lemma subtests_In g x : forall Gs idx, In x (subtests idx Gs g) ->
    st_rows x = rows g /\ exists j G, nth_error Gs j = Some G /\ In g G /\ st_split x = idx + j.
  Proof.
    clear HN HNn.
    induction Gs as [|G Gs IH]; intros idx H; [destruct H|]. simpl in H. apply in_app_or in H. destruct H as [H|H].
    - destruct (mem g G) eqn:E; [|destruct H]. destruct H as [<-|[]]. simpl. split; [reflexivity|].
      exists 0, G. apply mem_In in E. simpl. auto.
    - destruct (IH _ H) as (Hr & j & G' & Hj & Hg & Hs). split; [exact Hr|]. exists (S j), G'. simpl. repeat split; auto. lia.
  Qed.
End Dict.

(** * Assembling the path theorem *)

Lemma NoDup_flat_map {A B} (f : A -> list B) l : NoDup l -> (forall x, In x l -> NoDup (f x)) ->
  (forall x y z, In x l -> In y l -> In z (f x) -> In z (f y) -> x = y) -> NoDup (flat_map f l).
Proof.
  induction l as [|a l IH]; intros Hd Hf Hdis; simpl; [constructor|].
  inversion Hd as [|? ? Hni Hd']; subst. apply NoDup_app_iff. repeat split.
  - apply Hf. now left.
  - apply IH; auto with datatypes. intros x y z Hx Hy. apply Hdis; now right.
  - intros z Hz Hz'. apply in_flat_map in Hz'. destruct Hz' as (y & Hy & Hz').
    apply Hni. rewrite (Hdis a y z); auto with datatypes.
Qed.

Lemma flat_map_perm {A B} (f : A -> list B) l l' : Permutation l l' -> Permutation (flat_map f l) (flat_map f l').
Proof.
  induction 1 as [|x l l' H IH|x y l|l l' l'' H1 IH1 H2 IH2]; simpl.
  - constructor.
  - now apply Permutation_app_head.
  - rewrite !app_assoc. apply Permutation_app_tail, Permutation_app_comm.
  - now rewrite IH1.
Qed.

Lemma rows_seq n N m : N <> 0 -> N <= n -> m <= N -> flat_map (rows n N) (seq 0 m) = seq 0 (gstart n N m).
Proof.
  intros HN Hn. induction m as [|m IH]; intros Hm; [reflexivity|].
  rewrite seq_S, flat_map_app, IH by lia. cbn [Nat.add flat_map]. rewrite app_nil_r. unfold rows.
  pose proof (gstart_step n N m HN Hn) as Hst.
  replace (gstart n N (S m)) with (gstart n N m + (gstart n N (S m) - gstart n N m)) at 2 by lia.
  now rewrite seq_app.
Qed.

Lemma in_dict_dget d k l : NoDup (map fst d) -> In (k, l) d -> dget d k = l.
Proof.
  unfold dget. induction d as [|[k0 l0] d IH]; intros Hd H; [destruct H|]. simpl in *.
  inversion Hd as [|? ? Hni Hd']; subst. destruct H as [He|H].
  - inversion He; subst. now rewrite Nat.eqb_refl.
  - destruct (Nat.eqb_spec k k0) as [->|_]; [|auto]. exfalso. apply Hni. apply in_map_iff. exists (k0, l). auto.
Qed.

Lemma Forall2_map_r {A B C} (R : A -> C -> Prop) (f : B -> C) l1 l2 :
  Forall2 R l1 (map f l2) <-> Forall2 (fun x y => R x (f y)) l1 l2.
Proof.
  split.
  - revert l1. induction l2 as [|y l2 IH]; intros l1 H; inversion H; subst; constructor; auto.
  - induction 1; constructor; auto.
Qed.
Lemma Forall2_impl {A B} (R S : A -> B -> Prop) l1 l2 : (forall x y, R x y -> S x y) -> Forall2 R l1 l2 -> Forall2 S l1 l2.
Proof. intros H. induction 1; constructor; auto. Qed.

Lemma subset_ext_group N k g : 1 <= k -> k <= N -> g < N -> exists G, group_choice N k G /\ In g G.
Proof.
  intros H1 H2 Hg. destruct (Nat.le_gt_cases (g + k) N) as [H|H].
  - exists (seq g k). split; [|apply in_seq; lia]. split; [apply increasing_seq|split; [apply seq_length|]].
    intros x Hx. apply in_seq in Hx. lia.
  - exists (seq (N - k) k). split; [|apply in_seq; lia]. split; [apply increasing_seq|split; [apply seq_length|]].
    intros x Hx. apply in_seq in Hx. lia.
Qed.

Section FinalPaths.
  Variables (c : cv) (n : nat) (ss : list (list nat * list nat)).
  Hypothesis Hpar : params_ok c n.
  Hypothesis HF : Forall2 (split_rel c n) (group_choices c) ss.

  Let N := n_groups c.
  Let k := n_test_splits c.
  Let m := choose (N - 1) (k - 1).
  Let d := build_dict 0 (combine (map (map (gbound n N)) (group_choices c)) (map snd ss)) [].

  Lemma dict_facts :
    NoDup (map fst d) /\
    (forall key, In key (map fst d) <-> exists g, g < N /\ key = gstart n N g) /\
    (forall g, dget d (gstart n N g) = subtests n N 0 (group_choices c) g).
  Proof.
    destruct Hpar as (H1 & H2 & H3).
    destruct (build_dict_spec n N ltac:(lia) H3 (group_choices c) (map snd ss) 0 []) as (R1 & R2 & R3).
    - intros G HG. apply group_choices_In in HG. apply HG.
    - apply Forall2_map_r. eapply Forall2_impl; [|exact HF].
      intros G [tr te] (_ & Hi & Ht & _). simpl. auto.
    - constructor.
    - fold d in R1, R2, R3. split; [exact R1|split; [|exact R3]].
      intros key. rewrite R2. simpl. split.
      + intros [[]|(g & (G & HG & Hg) & ->)]. exists g. split; [|reflexivity].
        apply group_choices_In in HG. apply HG, Hg.
      + intros (g & Hg & ->). right. exists g. split; [|reflexivity].
        destruct (subset_ext_group N k g) as (G & HG & Hin); [exact H1|unfold k, N; lia|exact Hg|].
        exists G. split; [|exact Hin]. apply group_choices_In. exact HG.
  Qed.

  Lemma dict_len : all_len m d.
  Proof.
    destruct dict_facts as (R1 & R2 & R3). unfold all_len. rewrite Forall_forall. intros [key l] Hin. simpl.
    assert (In key (map fst d)) as Hk by (apply in_map_iff; exists (key, l); auto).
    apply R2 in Hk. destruct Hk as (g & Hg & ->).
    rewrite <- (in_dict_dget _ _ _ R1 Hin), R3, subtests_length.
    destruct Hpar as (H1 & _). apply group_choices_count; assumption.
  Qed.

  Lemma dict_nonempty : d <> [].
  Proof.
    destruct dict_facts as (R1 & R2 & R3). intros E.
    assert (In (gstart n N 0) (map fst d)) as H.
    { apply R2. exists 0. destruct Hpar. unfold N. split; [lia|reflexivity]. }
    rewrite E in H. destruct H.
  Qed.

  Lemma dict_keys_perm : exists gs, map fst d = map (gstart n N) gs /\ Permutation gs (seq 0 N).
  Proof.
    destruct dict_facts as (R1 & R2 & R3). destruct Hpar as (H1 & H2 & H3).
    assert (Permutation (map fst d) (map (gstart n N) (seq 0 N))) as HP.
    { apply NoDup_Permutation; [exact R1| |].
      - apply FinFun.Injective_map_NoDup; [|apply seq_NoDup]. intros x y. apply gstart_inj; lia.
      - intros key. rewrite R2, in_map_iff. split.
        + intros (g & Hg & ->). exists g. split; [reflexivity|]. apply in_seq. lia.
        + intros (g & <- & Hg). exists g. split; [|reflexivity]. apply in_seq in Hg. lia. }
    destruct (Permutation_map_inv _ _ HP) as (gs & Heq & Hp). exists gs. split; [exact Heq|]. now apply Permutation_sym.
  Qed.

  Lemma path_rows_gen gs : forall d0, incl d0 d -> map fst d0 = map (gstart n N) gs ->
    forall xs, Forall2 (fun kl x => In x (snd kl)) d0 xs -> map st_rows xs = map (rows n N) gs.
  Proof.
    destruct dict_facts as (R1 & R2 & R3).
    induction gs as [|g gs IH]; intros d0 Hsub Hk xs H; destruct d0 as [|[key l] d0]; try discriminate.
    - inversion H; subst. reflexivity.
    - inversion H as [|? x ? xs' Hx Hxs]; subst. simpl in Hk. injection Hk as Hk0 Hk. simpl. f_equal.
      + assert (In x (subtests n N 0 (group_choices c) g)) as Hin.
        { rewrite <- R3, <- Hk0. rewrite (in_dict_dget d key l); auto. apply Hsub. now left. }
        apply subtests_In in Hin. apply Hin.
      + apply (IH d0); auto. intros y Hy. apply Hsub. now right.
  Qed.

  (** A path takes one sub test of every group. *)
  Lemma path_rows xs : Forall2 (fun kl x => In x (snd kl)) d xs -> Permutation (flat_map st_rows xs) (seq 0 n).
  Proof.
    intros H. destruct Hpar as (H1 & H2 & H3).
    destruct dict_keys_perm as (gs & Hgs & HP).
    pose proof (path_rows_gen gs d (incl_refl d) Hgs xs H) as Hmap.
    rewrite flat_map_concat_map, Hmap, <- flat_map_concat_map.
    rewrite (flat_map_perm _ _ _ HP), rows_seq by (unfold N; lia). rewrite gstart_k by (unfold N; lia). reflexivity.
  Qed.

  Lemma dict_all_perm : Permutation (concat (map snd d)) (flat_map (subtests n N 0 (group_choices c)) (seq 0 N)).
  Proof.
    destruct dict_facts as (R1 & R2 & R3). destruct dict_keys_perm as (gs & Hgs & HP).
    rewrite <- (flat_map_perm _ _ _ HP). rewrite flat_map_concat_map.
    assert (map snd d = map (subtests n N 0 (group_choices c)) gs) as ->; [|reflexivity].
    assert (forall d0, incl d0 d -> forall gs, map fst d0 = map (gstart n N) gs ->
              map snd d0 = map (subtests n N 0 (group_choices c)) gs) as Hgen.
    { induction d0 as [|[key l] d0 IH]; intros Hsub gs0 Hk; destruct gs0 as [|g gs0]; try discriminate; [reflexivity|].
      simpl in Hk. injection Hk as Hk0 Hk. simpl. f_equal.
      - rewrite <- R3, <- Hk0. symmetry. apply in_dict_dget; auto. apply Hsub. now left.
      - apply IH; auto. intros y Hy. apply Hsub. now right. }
    apply Hgen; [apply incl_refl|exact Hgs].
  Qed.

  Lemma path_predictions_app l1 l2 : path_predictions (l1 ++ l2) = path_predictions l1 ++ path_predictions l2.
  Proof. apply flat_map_app. Qed.
  Lemma path_predictions_concat ll : path_predictions (concat ll) = flat_map path_predictions ll.
  Proof. induction ll as [|l ll IH]; simpl; auto. now rewrite path_predictions_app, IH. Qed.

  Lemma subtests_NoDup g : forall Gs idx, NoDup (path_predictions (subtests n N idx Gs g)).
  Proof.
    induction Gs as [|G Gs IH]; intros idx; simpl; [constructor|].
    rewrite path_predictions_app. apply NoDup_app_iff. repeat split; auto.
    - destruct (mem g G); simpl; [|constructor]. rewrite app_nil_r.
      apply FinFun.Injective_map_NoDup; [intros x y E; inversion E; reflexivity|]. apply seq_NoDup.
    - intros [j i] H1 H2. destruct (mem g G); [|destruct H1]. simpl in H1. rewrite app_nil_r in H1.
      apply in_map_iff in H1. destruct H1 as (i' & E & _). inversion E; subst.
      unfold path_predictions in H2. apply in_flat_map in H2. destruct H2 as (x & Hx & Hp).
      apply subtests_In in Hx. destruct Hx as (_ & j' & G' & _ & _ & Hs).
      apply in_map_iff in Hp. destruct Hp as (i'' & E' & _). inversion E'. lia.
  Qed.

  Lemma subtests_complete g : forall Gs idx j G, nth_error Gs j = Some G -> In g G ->
    In {| st_split := idx + j; st_rows := rows n N g |} (subtests n N idx Gs g).
  Proof.
    induction Gs as [|G0 Gs IH]; intros idx j G Hj Hg; [destruct j; discriminate|].
    simpl. apply in_or_app. destruct j as [|j]; simpl in Hj.
    - inversion Hj; subst. apply mem_In in Hg. rewrite Hg. left. simpl. left. f_equal. lia.
    - right. replace (idx + S j) with (S idx + j) by lia. eapply IH; eauto.
  Qed.

  Lemma predictions_facts L : Permutation (flat_map (subtests n N 0 (group_choices c)) (seq 0 N)) L ->
    NoDup (path_predictions L) /\ forall j i, In (j, i) (path_predictions L) <-> exists tr te, nth_error ss j = Some (tr, te) /\ In i te.
  Proof.
    intros HP. destruct Hpar as (H1 & H2 & H3).
    assert (path_predictions (flat_map (subtests n N 0 (group_choices c)) (seq 0 N)) =
            flat_map (fun g => path_predictions (subtests n N 0 (group_choices c) g)) (seq 0 N)) as Heq.
    { generalize (seq 0 N). induction l as [|g l IH]; simpl; auto. now rewrite path_predictions_app, IH. }
    assert (forall g j i, In (j, i) (path_predictions (subtests n N 0 (group_choices c) g)) <->
              (gstart n N g <= i < gstart n N (S g)) /\ exists G, nth_error (group_choices c) j = Some G /\ In g G) as Hin.
    { intros g j i. unfold path_predictions. rewrite in_flat_map.
      pose proof (gstart_step n N g ltac:(unfold N; lia) H3). split.
      - intros (x & Hx & Hp). apply subtests_In in Hx. destruct Hx as (Hr & j' & G & Hj & Hg & Hs).
        apply in_map_iff in Hp. destruct Hp as (i' & E & Hi). inversion E; subst. rewrite Hr in Hi.
        unfold rows in Hi. apply in_seq in Hi. split; [lia|]. exists G. rewrite Hs. auto.
      - intros (Hi & G & Hj & Hg). exists {| st_split := 0 + j; st_rows := rows n N g |}. split.
        + eapply subtests_complete; eauto.
        + simpl. apply in_map. unfold rows. apply in_seq. lia. }
    split.
    - eapply Permutation_NoDup; [apply flat_map_perm, HP|]. fold (path_predictions (flat_map (subtests n N 0 (group_choices c)) (seq 0 N))).
      rewrite Heq. apply NoDup_flat_map; [apply seq_NoDup|intros; apply subtests_NoDup|].
      intros g g' [j i] _ _ Hg Hg'. apply Hin in Hg, Hg'. eapply group_unique; [| |apply Hg|apply Hg']; unfold N; lia.
    - intros j i. transitivity (In (j, i) (path_predictions (flat_map (subtests n N 0 (group_choices c)) (seq 0 N)))).
      { split; apply Permutation_in; [apply Permutation_sym|]; apply flat_map_perm, HP. }
      rewrite Heq, in_flat_map. split.
      + intros (g & Hg & Hp). apply Hin in Hp. destruct Hp as (Hi & G & Hj & HgG).
        destruct (Forall2_nth _ _ _ _ _ HF Hj) as ([tr te] & Hn & HR). exists tr, te. split; [exact Hn|].
        destruct HR as (_ & _ & HR & _). apply HR. exists g. auto.
      + intros (tr & te & Hn & Hi).
        assert (exists G, nth_error (group_choices c) j = Some G) as (G & HG).
        { destruct (nth_error (group_choices c) j) eqn:E; [eauto|]. apply nth_error_None in E.
          assert (j < length ss) by (apply nth_error_Some; congruence). rewrite <- (Forall2_len _ _ _ HF) in H. lia. }
        destruct (Forall2_nth _ _ _ _ _ HF HG) as ([tr' te'] & Hn' & HR). rewrite Hn in Hn'. inversion Hn'; subst.
        destruct HR as (_ & _ & HR & _). apply HR in Hi. destruct Hi as (g & Hg & Hi).
        exists g. split; [|apply Hin; eauto]. apply in_seq.
        assert (In G (group_choices c)) as HGin by (eapply nth_error_In; eauto).
        apply group_choices_In in HGin. pose proof (proj2 (proj2 HGin) g Hg). unfold N. lia.
  Qed.
End FinalPaths.

Lemma make_cv_params groups tests p e emb c n : make_cv groups tests p e emb = Ok c ->
  (groups <= Z.of_nat n)%Z -> params_ok c n.
Proof.
  intros H Hn. apply make_cv_inv in H. destruct H as (H1 & H2 & H3 & H4 & _). unfold params_ok. lia.
Qed.

Lemma n_splits_exact groups tests p e emb c : make_cv groups tests p e emb = Ok c ->
  (Z.of_nat (choose (n_groups c) (n_test_splits c)) < 2 ^ 53)%Z ->
  n_splits c = Z.of_nat (choose (n_groups c) (n_test_splits c)).
Proof.
  intros H Hlt. apply make_cv_inv in H. destruct H as (H1 & H2 & H3 & H4 & _ & _ & _ & H5).
  destruct (choose_fact_div (n_groups c) (n_test_splits c) ltac:(lia)) as [_ Hf].
  pose proof (factZ_pos (n_test_splits c)). pose proof (factZ_pos (n_groups c - n_test_splits c)).
  pose proof (choose_pos (n_groups c) (n_test_splits c) ltac:(lia)).
  rewrite (int_truediv_exact _ _ (Z.of_nat (choose (n_groups c) (n_test_splits c)))) in H5; [congruence|nia|lia|lia|lia].
Qed.

Lemma path_predictions_rows path : map snd (path_predictions path) = flat_map st_rows path.
Proof.
  unfold path_predictions. induction path as [|x path IH]; [reflexivity|].
  cbn [flat_map]. rewrite map_app, map_map, map_id, IH. reflexivity.
Qed.

Section PathTheorem.
  Variables (groups tests : Z) (p : option (list Z)) (e : option (list (option Z))) (emb : Z) (c : cv) (n : nat).
  Hypothesis Hmk : make_cv groups tests p e emb = Ok c.
  Hypothesis Hn : (groups <= Z.of_nat n)%Z.
  Hypothesis Hdata : data_ok c n.
  Variable shuf : nat -> nat -> list subtest -> list subtest.
  Hypothesis shuf_perm : forall p k l, Permutation (shuf p k l) l.

  Let N := n_groups c.
  Let k := n_test_splits c.
  Let m := choose (N - 1) (k - 1).

  Lemma cv_paths_unfold ss : split c n = Ok ss ->
    cv_paths c n shuf =
    do np <- compute_back_test_paths (n_splits c) k ;;
    paths_loop shuf 0 (Z.to_nat np) (build_dict 0 (combine (map (map (gbound n N)) (group_choices c)) (map snd ss)) []).
  Proof.
    intros Hss. unfold cv_paths. rewrite test_fold_bounds_ok by (eapply make_cv_params; eauto).
    rewrite Hss. reflexivity.
  Qed.

  Lemma cv_paths_good np : compute_back_test_paths (n_splits c) k = Ok np -> np = Z.of_nat m ->
    exists ss paths, split c n = Ok ss /\ cv_paths c n shuf = Ok paths /\   length paths = m /\   (forall path, In path paths -> Permutation (map snd (path_predictions path)) (seq 0 n)) /\   NoDup (flat_map path_predictions paths) /\   (forall j i, In (j, i) (flat_map path_predictions paths) <->
         exists tr te, nth_error ss j = Some (tr, te) /\ In i te).
  Proof.
    intros Hnp Heq. pose proof (make_cv_params _ _ _ _ _ _ _ Hmk Hn) as Hpar.
    destruct (split_ok c n Hpar Hdata) as (ss & Hss & HF).
    pose proof (dict_len c n ss Hpar HF) as Hlen.
    set (d := build_dict 0 (combine (map (map (gbound n (n_groups c))) (group_choices c)) (map snd ss)) []) in *.
    destruct (paths_loop_ok shuf shuf_perm _ 0 d Hlen) as (ps & Hps & Hl & HFs & HP).
    exists ss, ps. split; [exact Hss|split].
    - rewrite (cv_paths_unfold ss Hss), Hnp. cbn [bind]. subst np. rewrite Nat2Z.id. exact Hps.
    - split; [exact Hl|split].
      + intros path Hpath. rewrite Forall_forall in HFs. specialize (HFs path Hpath).
        rewrite <- (path_rows c n ss Hpar HF path HFs), path_predictions_rows. reflexivity.
      + rewrite <- path_predictions_concat. apply (predictions_facts c n ss Hpar HF).
        rewrite <- (dict_all_perm c n ss Hpar HF). exact HP.
  Qed.

  Lemma cv_paths_ok : (Z.of_nat N < 2 ^ 53)%Z -> k = 1 \/ k = N - 1 ->
    exists ss paths, split c n = Ok ss /\ cv_paths c n shuf = Ok paths /\   length paths = m /\   (forall path, In path paths -> Permutation (map snd (path_predictions path)) (seq 0 n)) /\   NoDup (flat_map path_predictions paths) /\   (forall j i, In (j, i) (flat_map path_predictions paths) <->
         exists tr te, nth_error ss j = Some (tr, te) /\ In i te).
  Proof.
    intros Hsmall Hk. pose proof (make_cv_params _ _ _ _ _ _ _ Hmk Hn) as Hpar. destruct Hpar as (H1 & H2 & H3).
    fold N in H2, H3. fold k in H1, H2.
    assert (choose N k = N) as Hc.
    { destruct Hk as [-> | ->]; [|apply choose_pred; lia].
      clear - H2. destruct N as [|N']; [lia|]. clear. induction N' as [|N' IH]; [reflexivity|].
      change (choose (S N') 0 + choose (S N') 1 = S (S N')). rewrite IH. reflexivity. }
    assert (n_splits c = Z.of_nat N) as Hns.
    { rewrite (n_splits_exact _ _ _ _ _ _ Hmk); fold N; fold k; rewrite Hc; [reflexivity|exact Hsmall]. }
    eapply cv_paths_good; [|reflexivity]. rewrite Hns. apply paths_count; [lia|].
    fold m. unfold m. destruct Hk as [-> | ->].
    - simpl Nat.sub. rewrite choose_0. lia.
    - replace (N - 1 - 1) with ((N - 1) - 1) by lia.
      destruct (Nat.eq_dec N 1) as [E|E]; [lia|]. rewrite choose_pred by lia. lia.
  Qed.

  Lemma cv_paths_fail : (Z.of_nat (choose N k) < 2 ^ 53)%Z -> 2 <= k -> k + 2 <= N ->
    cv_paths c n shuf = Err IndexError \/ cv_paths c n shuf = Err OverflowError.
  Proof.
    intros Hsmall Hk2 HkN. pose proof (make_cv_params _ _ _ _ _ _ _ Hmk Hn) as Hpar.
    destruct (split_ok c n Hpar Hdata) as (ss & Hss & HF).
    pose proof (dict_len c n ss Hpar HF) as Hlen. pose proof (dict_nonempty c n ss Hpar HF) as Hne.
    rewrite (cv_paths_unfold ss Hss).
    rewrite (n_splits_exact _ _ _ _ _ _ Hmk Hsmall). fold N k.
    pose proof (choose_gt N k Hk2 HkN) as Hgt.
    assert (m < choose (choose N k - 1) (k - 1)) as Hm.
    { unfold m. apply choose_strict; lia. }
    assert (Z.of_nat m < 2 ^ 53)%Z as Hm53.
    { unfold m. assert (choose (N - 1) (k - 1) <= choose N k); [|lia].
      destruct N as [|N']; [lia|]. destruct k as [|k']; [lia|]. simpl Nat.sub. rewrite !Nat.sub_0_r. cbn [choose]. lia. }
    destruct (compute_back_test_paths (Z.of_nat (choose N k)) k) as [np|x] eqn:Ep; cbn [bind].
    - left. assert (Z.of_nat m < np)%Z as Hnp.
      { rewrite paths_count_eq in Ep by lia.
        destruct (Z.lt_ge_cases (Z.of_nat (choose (choose N k - 1) (k - 1))) (2 ^ 53)) as [Hs|Hs].
        - rewrite (int_truediv_exact _ _ (Z.of_nat (choose (choose N k - 1) (k - 1)))) in Ep; auto; try lia; [|apply factZ_pos].
          inversion Ep. lia.
        - pose proof (int_truediv_large _ _ (Z.of_nat (choose (choose N k - 1) (k - 1))) (factZ_pos (k - 1)) ltac:(lia) eq_refl np Hs Ep). lia. }
      replace (Z.to_nat np) with (m + S (Z.to_nat np - m - 1)) by lia.
      apply paths_loop_too_many; auto.
    - right. rewrite paths_count_eq in Ep by lia. unfold int_truediv in Ep.
      destruct (_ =? 0)%Z in Ep; [discriminate|]. cbv zeta in Ep.
      match type of Ep with (if ?c then _ else _) = _ => destruct c end; inversion Ep; auto.
  Qed.
End PathTheorem.
