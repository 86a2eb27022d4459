(** Proofs about the bootstrapping model. *)
From Coq Require Import Lqa.
From Verif Require Import PreludeFacts QSumFacts Boot_Spec Boot_Model.
Open Scope nat_scope.

(** * Positions in increasing lists *)

Lemma position_Some x l p : position x l = Some p -> nth_error l p = Some x.
Proof.
  revert p. induction l as [|y l IH]; intros p H; [discriminate|]. simpl in H.
  destruct (Z.eqb_spec x y); [inversion H; subst; reflexivity|].
  destruct (position x l) as [q|]; [|discriminate]. inversion H; subst. simpl. now apply IH.
Qed.
Lemma position_In x l : In x l -> exists p, position x l = Some p.
Proof.
  induction l as [|y l IH]; intros H; [destruct H|]. simpl. destruct (Z.eqb_spec x y); [eauto|].
  destruct H as [H|H]; [congruence|]. destruct (IH H) as (p & ->). simpl. eauto.
Qed.

Lemma incZ_nth_lt l : increasingZ l -> forall i j x y, nth_error l i = Some x -> nth_error l j = Some y -> i < j -> (x < y)%Z.
Proof.
  induction 1 as [|a l Hs IH Hf]; intros i j x y Hi Hj Hlt; [now destruct i|].
  destruct j as [|j]; [lia|]. destruct i as [|i].
  - simpl in *. inversion Hi; subst. rewrite Forall_forall in Hf. apply Hf. eapply nth_error_In; eauto.
  - simpl in *. eapply IH; eauto. lia.
Qed.
Lemma incZ_nth_le l : increasingZ l -> forall i j x y, nth_error l i = Some x -> nth_error l j = Some y -> (i <= j <-> (x <= y)%Z).
Proof.
  intros H i j x y Hi Hj. split.
  - intros Hle. destruct (Nat.eq_dec i j) as [->|]; [assert (x = y) by congruence; lia|].
    pose proof (incZ_nth_lt l H i j x y Hi Hj ltac:(lia)). lia.
  - intros Hle. destruct (Nat.le_gt_cases i j); [auto|]. pose proof (incZ_nth_lt l H j i y x Hj Hi ltac:(lia)). lia.
Qed.

Lemma list_minZ_spec l : forall d t, (list_minZ d l <= t)%Z <-> exists x, In x (d :: l) /\ (x <= t)%Z.
Proof.
  unfold list_minZ. induction l as [|a l IH]; intros d t; simpl.
  - split; [exists d; auto|]. intros (x & [->|[]] & H); auto.
  - rewrite IH. simpl. split.
    + intros (x & [<-|Hx] & H); [|exists x; auto]. destruct (Z.min_spec d a) as [[_ E]|[_ E]]; rewrite E in H; eauto.
    + intros (x & [<-|[<-|Hx]] & H); [exists (Z.min d a)|exists (Z.min d a)|exists x]; split; auto; lia.
Qed.
Lemma list_maxZ_spec l : forall d t, (t <= list_maxZ d l)%Z <-> exists x, In x (d :: l) /\ (t <= x)%Z.
Proof.
  unfold list_maxZ. induction l as [|a l IH]; intros d t; simpl.
  - split; [exists d; auto|]. intros (x & [->|[]] & H); auto.
  - rewrite IH. simpl. split.
    + intros (x & [<-|Hx] & H); [|exists x; auto]. destruct (Z.max_spec d a) as [[_ E]|[_ E]]; rewrite E in H; eauto.
    + intros (x & [<-|[<-|Hx]] & H); [exists (Z.max d a)|exists (Z.max d a)|exists x]; split; auto; lia.
Qed.

(** * get_ind_matrix *)

Definition idx_of (samples : list (Z * Z)) (bars : list Z) : list Z :=
  match samples with
  | [] => []
  | (s0, e0) :: r =>
    np_uniqueZ (map fst samples ++ map snd samples ++
      filter (fun b => (list_minZ s0 (map fst r) <=? b) && (b <=? list_maxZ e0 (map snd r)))%Z bars)
  end.

Lemma idx_of_In samples bars t : samples <> [] -> In t (idx_of samples bars) <-> row_time samples bars t.
Proof.
  destruct samples as [|(s0, e0) r]; intros Hne; [congruence|]. unfold idx_of. rewrite np_uniqueZ_In, !in_app_iff, filter_In, andb_true_iff, Z.leb_le, Z.leb_le.
  rewrite list_minZ_spec, list_maxZ_spec. unfold row_time.
  change (s0 :: map fst r) with (map fst ((s0, e0) :: r)). change (e0 :: map snd r) with (map snd ((s0, e0) :: r)).
  set (S := (s0, e0) :: r). split.
  - intros [H|[H|(H1 & H2 & H3)]].
    + apply in_map_iff in H. destruct H as ((s, e) & <- & H). left. exists s, e. auto.
    + apply in_map_iff in H. destruct H as ((s, e) & <- & H). left. exists s, e. auto.
    + right. split; [exact H1|].
      destruct H2 as (x & H2 & Hx). apply in_map_iff in H2. destruct H2 as ((s, e) & <- & H2).
      destruct H3 as (y & H3 & Hy). apply in_map_iff in H3. destruct H3 as ((s', e') & <- & H3).
      split; [exists s, e|exists s', e']; auto.
  - intros [(s & e & H & [->| ->])|(H1 & (s & e & H2 & H3) & (s' & e' & H4 & H5))].
    + left. apply in_map_iff. exists (s, e). auto.
    + right; left. apply in_map_iff. exists (s, e). auto.
    + right; right. split; [exact H1|split].
      * exists s. split; [apply in_map_iff; exists (s, e); auto|exact H3].
      * exists e'. split; [apply in_map_iff; exists (s', e'); auto|exact H5].
Qed.
Lemma idx_of_inc samples bars : increasingZ (idx_of samples bars).
Proof. destruct samples as [|(s0, e0) r]; [constructor|]. apply np_uniqueZ_inc. Qed.

Lemma flat_map_complete_fst samples : flat_map (fun s : option Z * option Z => match fst s with Some x => [x] | None => [] end) (complete samples) = map fst samples.
Proof. induction samples as [|(s, e) r IH]; [reflexivity|]. simpl in *. now rewrite IH. Qed.
Lemma flat_map_complete_snd samples : flat_map (fun s : option Z * option Z => match snd s with Some x => [x] | None => [] end) (complete samples) = map snd samples.
Proof. induction samples as [|(s, e) r IH]; [reflexivity|]. simpl in *. now rewrite IH. Qed.
Lemma existsb_complete_fst samples : existsb (fun s : option Z * option Z => match fst s with None => true | Some _ => false end) (complete samples) = false.
Proof. induction samples as [|(s, e) r IH]; [reflexivity|]. simpl in *. exact IH. Qed.
Lemma existsb_complete_snd samples : existsb (fun s : option Z * option Z => match snd s with None => true | Some _ => false end) (complete samples) = false.
Proof. induction samples as [|(s, e) r IH]; [reflexivity|]. simpl in *. exact IH. Qed.

Lemma lookup_all idx l : (forall x, In x l -> In x idx) ->
  exists ps, mapM (lookup_pos idx) l = Ok ps /\ Forall2 (fun x p => nth_error idx p = Some x) l ps.
Proof.
  induction l as [|x l IH]; intros H; [exists []; auto|].
  destruct (position_In x idx (H x (or_introl eq_refl))) as (p & Hp).
  destruct IH as (ps & Hps & HF); [intros; apply H; now right|].
  exists (p :: ps). simpl. unfold lookup_pos at 1. rewrite Hp. cbn [bind]. rewrite Hps. cbn [bind].
  split; [reflexivity|]. constructor; [now apply position_Some|exact HF].
Qed.


Lemma nth_error_combine {A B} (l1 : list A) : forall (l2 : list B) i a b,
  nth_error l1 i = Some a -> nth_error l2 i = Some b -> nth_error (combine l1 l2) i = Some (a, b).
Proof.
  induction l1 as [|x l1 IH]; intros l2 i a b H1 H2; [now destruct i|].
  destruct l2 as [|y l2]; [now destruct i|]. destruct i as [|i]; simpl in *; [congruence|auto].
Qed.
Lemma nth_error_combine_inv {A B} (l1 : list A) : forall (l2 : list B) i a b,
  nth_error (combine l1 l2) i = Some (a, b) -> nth_error l1 i = Some a /\ nth_error l2 i = Some b.
Proof.
  induction l1 as [|x l1 IH]; intros l2 i a b H; [now destruct i|].
  destruct l2 as [|y l2]; [now destruct i|]. destruct i as [|i]; simpl in *; [inversion H; auto|auto].
Qed.

(** The state of affairs before the two assertions. *)
Lemma ind_matrix_pre samples bars : samples <> [] ->
  exists m, (get_ind_matrix (complete samples) bars =
      if negb (any_entry m true) then Err AssertionError else
      if negb (any_entry m false) then Err AssertionError else Ok (m, idx_of samples bars)) /\
    ncols m = length samples /\ nrows m = length (idx_of samples bars) /\
    (forall t j tau s e, nth_error (idx_of samples bars) t = Some tau -> nth_error samples j = Some (s, e) ->
       (entry m t j = true <-> (s <= tau <= e)%Z)).
Proof.
  intros Hne. unfold get_ind_matrix.
  rewrite existsb_complete_fst, existsb_complete_snd. cbn [orb].
  rewrite flat_map_complete_fst, flat_map_complete_snd.
  destruct samples as [|(s0, e0) r]; [congruence|]. cbn [map fst snd].
  set (S := (s0, e0) :: r) in *. set (idx := idx_of S bars).
  change (np_uniqueZ _) with idx.
  destruct (lookup_all idx (s0 :: map fst r)) as (ps & Hps & HFs).
  { intros x Hx. apply idx_of_In; [exact Hne|]. left. change (s0 :: map fst r) with (map fst S) in Hx.
    apply in_map_iff in Hx. destruct Hx as ((s, e) & <- & Hx). exists s, e. auto. }
  destruct (lookup_all idx (e0 :: map snd r)) as (pe & Hpe & HFe).
  { intros x Hx. apply idx_of_In; [exact Hne|]. left. change (e0 :: map snd r) with (map snd S) in Hx.
    apply in_map_iff in Hx. destruct Hx as ((s, e) & <- & Hx). exists s, e. auto. }
  rewrite Hps, Hpe. cbn [bind].
  exists (fill (length idx) (combine ps pe)). split; [reflexivity|].
  pose proof (Forall2_len _ _ _ HFs) as L1. pose proof (Forall2_len _ _ _ HFe) as L2.
  simpl in L1, L2. rewrite map_length in L1, L2.
  split; [simpl; rewrite combine_length; unfold S; simpl; lia|split; [reflexivity|]].
  intros t j tau s e Ht Hj.
  change (s0 :: map fst r) with (map fst S) in HFs. change (e0 :: map snd r) with (map snd S) in HFe.
  assert (nth_error (map fst S) j = Some s) as H1 by (rewrite nth_error_map, Hj; reflexivity).
  assert (nth_error (map snd S) j = Some e) as H2 by (rewrite nth_error_map, Hj; reflexivity).
  destruct (Forall2_nth _ _ _ _ _ HFs H1) as (p & Hp & Hps').
  destruct (Forall2_nth _ _ _ _ _ HFe H2) as (q & Hq & Hpe').
  simpl. rewrite (nth_error_combine _ _ _ _ _ Hp Hq).
  rewrite andb_true_iff, Nat.leb_le, Nat.ltb_lt.
  pose proof (incZ_nth_le idx (idx_of_inc S bars) p t s tau Hps' Ht).
  pose proof (incZ_nth_le idx (idx_of_inc S bars) t q tau e Ht Hpe').
  split; intros; split; try lia; apply H; lia.
Qed.

Lemma any_entry_spec m v : any_entry m v = true <-> exists t j, t < nrows m /\ j < ncols m /\ entry m t j = v.
Proof.
  unfold any_entry. rewrite existsb_exists. split.
  - intros (t & Ht & H). apply existsb_exists in H. destruct H as (j & Hj & H). apply in_seq in Ht, Hj.
    exists t, j. apply eqb_prop in H. repeat split; auto; lia.
  - intros (t & j & Ht & Hj & H). exists t. split; [apply in_seq; lia|]. apply existsb_exists. exists j.
    split; [apply in_seq; lia|]. rewrite H. apply eqb_reflx.
Qed.

Lemma complete_inv samples : existsb (fun s : option Z * option Z => match snd s with None => true | Some _ => false end) samples = false ->
  existsb (fun s : option Z * option Z => match fst s with None => true | Some _ => false end) samples = false ->
  exists c, samples = complete c.
Proof.
  induction samples as [|(s, e) r IH]; intros H1 H2; [exists []; reflexivity|]. simpl in H1, H2.
  apply orb_false_iff in H1, H2. destruct H1 as [H1 H1'], H2 as [H2 H2'].
  destruct (IH H1' H2') as (c & ->). destruct s as [s|]; [|discriminate]. destruct e as [e|]; [|discriminate].
  exists ((s, e) :: c). reflexivity.
Qed.

Lemma c13 samples bars m idx : get_ind_matrix (complete samples) bars = Ok (m, idx) ->
  ncols m = length samples /\ nrows m = length idx /\ increasingZ idx /\
  (forall t, In t idx <-> row_time samples bars t) /\
  (forall t j tau s e, nth_error idx t = Some tau -> nth_error samples j = Some (s, e) ->
     (entry m t j = true <-> (s <= tau <= e)%Z)).
Proof.
  intros H. assert (samples <> []) as Hne by (intros ->; discriminate).
  destruct (ind_matrix_pre samples bars Hne) as (m' & Hm & H1 & H2 & H3). rewrite Hm in H.
  destruct (negb (any_entry m' true)); [discriminate|]. destruct (negb (any_entry m' false)); [discriminate|].
  injection H as <- <-. split; [exact H1|split; [exact H2|split; [apply idx_of_inc|split]]].
  - intros t. now apply idx_of_In.
  - exact H3.
Qed.

Lemma get_ind_matrix_missing samples bars :
  get_ind_matrix samples bars = Err ValueError <-> samples = [] \/ exists s e, In (s, e) samples /\ (s = None \/ e = None).
Proof.
  split.
  - intros H.
    destruct (existsb (fun s => match snd s with None => true | Some _ => false end) samples) eqn:E1.
    { apply existsb_exists in E1. destruct E1 as ((s, e) & Hin & He). right. exists s, e. split; [exact Hin|]. right. simpl in He. destruct e; congruence. }
    destruct (existsb (fun s => match fst s with None => true | Some _ => false end) samples) eqn:E2.
    { apply existsb_exists in E2. destruct E2 as ((s, e) & Hin & He). right. exists s, e. split; [exact Hin|]. left. simpl in He. destruct s; congruence. }
    destruct (complete_inv samples E1 E2) as (c & ->). destruct c as [|x c]; [now left|]. exfalso.
    destruct (ind_matrix_pre (x :: c) bars ltac:(discriminate)) as (m & Hm & _). rewrite Hm in H.
    destruct (negb (any_entry m true)); [discriminate|]. destruct (negb (any_entry m false)); discriminate.
  - intros [-> | (s & e & Hin & Hm)]; [reflexivity|]. unfold get_ind_matrix.
    destruct (existsb (fun s => match snd s with None => true | Some _ => false end) samples) eqn:E1; [reflexivity|].
    destruct (existsb (fun s => match fst s with None => true | Some _ => false end) samples) eqn:E2; [reflexivity|].
    exfalso. destruct (complete_inv samples E1 E2) as (c & ->). unfold complete in Hin. apply in_map_iff in Hin.
    destruct Hin as ((a, b) & Hab & _). inversion Hab; subst. destruct Hm; discriminate.
Qed.

Lemma c14_accept samples bars : samples <> [] ->
  let inside := exists t s e, row_time samples bars t /\ In (s, e) samples /\ (s <= t <= e)%Z in
  let outside := exists t s e, row_time samples bars t /\ In (s, e) samples /\ ~ (s <= t <= e)%Z in
  ((exists m idx, get_ind_matrix (complete samples) bars = Ok (m, idx)) <-> inside /\ outside) /\
  (~ (inside /\ outside) -> get_ind_matrix (complete samples) bars = Err AssertionError).
Proof.
  intros Hne inside outside.
  destruct (ind_matrix_pre samples bars Hne) as (m & Hm & H1 & H2 & H3).
  assert (any_entry m true = true <-> inside) as A.
  { rewrite any_entry_spec. split.
    - intros (t & j & Ht & Hj & He). rewrite H2 in Ht. rewrite H1 in Hj.
      destruct (nth_error (idx_of samples bars) t) as [tau|] eqn:E; [|apply nth_error_None in E; lia].
      destruct (nth_error samples j) as [[s e]|] eqn:E'; [|apply nth_error_None in E'; lia].
      exists tau, s, e. split; [apply idx_of_In; auto; eapply nth_error_In; eauto|]. split; [eapply nth_error_In; eauto|]. apply (H3 t j); auto.
    - intros (tau & s & e & Hr & Hin & Hse). apply idx_of_In in Hr; auto.
      apply In_nth_error in Hr, Hin. destruct Hr as (t & Ht), Hin as (j & Hj). exists t, j.
      split; [rewrite H2; apply nth_error_Some; congruence|]. split; [rewrite H1; apply nth_error_Some; congruence|]. apply (H3 t j tau s e); auto. }
  assert (any_entry m false = true <-> outside) as B.
  { rewrite any_entry_spec. split.
    - intros (t & j & Ht & Hj & He). rewrite H2 in Ht. rewrite H1 in Hj.
      destruct (nth_error (idx_of samples bars) t) as [tau|] eqn:E; [|apply nth_error_None in E; lia].
      destruct (nth_error samples j) as [[s e]|] eqn:E'; [|apply nth_error_None in E'; lia].
      exists tau, s, e. split; [apply idx_of_In; auto; eapply nth_error_In; eauto|]. split; [eapply nth_error_In; eauto|].
      intros Hc. apply (H3 t j tau s e) in Hc; auto. congruence.
    - intros (tau & s & e & Hr & Hin & Hse). apply idx_of_In in Hr; auto.
      apply In_nth_error in Hr, Hin. destruct Hr as (t & Ht), Hin as (j & Hj). exists t, j.
      split; [rewrite H2; apply nth_error_Some; congruence|]. split; [rewrite H1; apply nth_error_Some; congruence|].
      destruct (entry m t j) eqn:E; [|reflexivity]. exfalso. apply Hse. apply (H3 t j tau s e); auto. }
  rewrite Hm. destruct (any_entry m true) eqn:E1, (any_entry m false) eqn:E2; cbn [negb].
  - split; [split; [intros _; split; [now apply A|now apply B]|intros _; eauto]|]. intros Hn. exfalso. apply Hn. split; [now apply A|now apply B].
  - split; [|reflexivity]. split; [intros (? & ? & H); discriminate|]. intros [_ Ho]. apply B in Ho. congruence.
  - split; [|reflexivity]. split; [intros (? & ? & H); discriminate|]. intros [Hi _]. apply A in Hi. congruence.
  - split; [|reflexivity]. split; [intros (? & ? & H); discriminate|]. intros [Hi _]. apply A in Hi. congruence.
Qed.

Lemma c14_single s e bars : get_ind_matrix (complete [(s, e)]) bars = Err AssertionError.
Proof.
  apply c14_accept; [discriminate|]. intros [(t & s1 & e1 & Hr & Hin & H1) (t' & s2 & e2 & Hr' & Hin' & H2)].
  destruct Hin as [Hin|[]]. inversion Hin; subst s1 e1. destruct Hin' as [Hin'|[]]. inversion Hin'; subst s2 e2.
  apply H2. destruct Hr' as [(s3 & e3 & [H3|[]] & H4)|(_ & (s3 & e3 & [H3|[]] & H4) & (s5 & e5 & [H5|[]] & H6))].
  - inversion H3; subst. lia.
  - inversion H3; subst. inversion H5; subst. lia.
Qed.

(** * Average uniqueness *)

Lemma qsum_b2q {A} (p : A -> bool) l : (qsum (map (fun x => b2q (p x)) l) == Qn (count p l))%Q.
Proof.
  unfold count. induction l as [|x l IH]; simpl; [reflexivity|]. rewrite IH. destruct (p x); simpl.
  - rewrite Qn_S. ring.
  - ring.
Qed.

Lemma qmean_map_ext {A} (f g : A -> Q) l : (forall x, In x l -> f x == g x)%Q -> (qmean (map f l) == qmean (map g l))%Q.
Proof. intros H. unfold qmean. rewrite !map_length, (qsum_map_ext _ _ _ H). reflexivity. Qed.

Lemma nth_error_map_seq {A} (f : nat -> A) n j : j < n -> nth_error (map f (seq 0 n)) j = Some (f j).
Proof. intros H. apply map_nth_error. apply nth_error_seq. lia. Qed.

Lemma c15_value m j : j < ncols m -> rows_of (nrows m) (entry m) j <> [] ->
  exists u, nth_error (calc_average_uniqueness m) j = Some (Some u) /\
    (u == mean_inverse_concurrency (nrows m) (entry m) (ncols m) j)%Q.
Proof.
  intros Hj Hne. unfold calc_average_uniqueness, all_cols. rewrite nth_error_map_seq by exact Hj.
  unfold mean_or_nan. change (filter (fun t => entry m t j) (all_rows m)) with (rows_of (nrows m) (entry m) j).
  destruct (Nat.eqb_spec (length (rows_of (nrows m) (entry m) j)) 0) as [E|E].
  { apply length_zero_iff_nil in E. congruence. }
  eexists. split; [reflexivity|]. unfold mean_inverse_concurrency, qmean. rewrite map_length.
  rewrite (qsum_map_ext (fun t => 1 / concurrency m t)%Q (fun t => / Qn (count (entry m t) (seq 0 (ncols m))))%Q); [reflexivity|].
  intros t _. unfold concurrency, all_cols. rewrite qsum_b2q. unfold Qdiv. ring.
Qed.

Lemma count_pos {A} (p : A -> bool) l x : In x l -> p x = true -> 1 <= count p l.
Proof.
  intros Hin Hp. unfold count. assert (In x (filter p l)) as H by (apply filter_In; auto).
  destruct (filter p l); [destruct H|simpl; lia].
Qed.
Lemma count_le {A} (p : A -> bool) l : count p l <= length l.
Proof. unfold count. induction l as [|x l IH]; simpl; [lia|]. destruct (p x); simpl; lia. Qed.
Lemma count_app {A} (p : A -> bool) l l' : count p (l ++ l') = count p l + count p l'.
Proof. unfold count. rewrite filter_app, app_length. reflexivity. Qed.

Lemma count_two (p : nat -> bool) n i j : i < n -> j < n -> i <> j -> p i = true -> p j = true -> 2 <= count p (seq 0 n).
Proof.
  intros Hi Hj Hne Hpi Hpj. unfold count.
  assert (NoDup (filter p (seq 0 n))) as ND by (apply NoDup_filter, seq_NoDup).
  assert (In i (filter p (seq 0 n))) as Ii by (apply filter_In; split; [apply in_seq; lia|auto]).
  assert (In j (filter p (seq 0 n))) as Ij by (apply filter_In; split; [apply in_seq; lia|auto]).
  destruct (filter p (seq 0 n)) as [|x [|y r]]; simpl; [destruct Ii| |lia].
  destruct Ii as [<-|[]], Ij as [<-|[]]. congruence.
Qed.
Lemma count_one (p : nat -> bool) n j : j < n -> p j = true -> (forall i, i < n -> i <> j -> p i = false) -> count p (seq 0 n) = 1.
Proof.
  intros Hj Hp Ho. unfold count.
  assert (NoDup (filter p (seq 0 n))) as ND by (apply NoDup_filter, seq_NoDup).
  assert (forall x, In x (filter p (seq 0 n)) -> x = j) as H.
  { intros x Hx. apply filter_In in Hx. destruct Hx as [Hx Hpx]. apply in_seq in Hx.
    destruct (Nat.eq_dec x j); [auto|]. rewrite Ho in Hpx; [discriminate|lia|auto]. }
  assert (In j (filter p (seq 0 n))) as Ij by (apply filter_In; split; [apply in_seq; lia|auto]).
  destruct (filter p (seq 0 n)) as [|x [|y r]]; simpl; [destruct Ij|reflexivity|].
  exfalso. inversion ND as [|? ? Hn _]; subst. apply Hn. left.
  rewrite (H x), (H y); simpl; auto.
Qed.

Lemma rows_of_In T cov j t : In t (rows_of T cov j) <-> t < T /\ cov t j = true.
Proof. unfold rows_of. rewrite filter_In, in_seq. intuition lia. Qed.

Lemma c15_bounds T cov N j : j < N -> rows_of T cov j <> [] ->
  let u := mean_inverse_concurrency T cov N j in
  (0 < u /\ u <= 1 /\ / Qn N <= u)%Q /\
  ((u == 1)%Q <-> forall i, i < N -> i <> j -> ~ overlap T cov i j).
Proof.
  intros Hj Hne u.
  assert (forall t, In t (rows_of T cov j) -> 1 <= count (cov t) (seq 0 N) <= N) as Hc.
  { intros t Ht. apply rows_of_In in Ht. split.
    - apply (count_pos _ _ j); [apply in_seq; lia|tauto].
    - rewrite <- (seq_length N 0) at 2. apply count_le. }
  assert (map (fun t => / Qn (count (cov t) (seq 0 N)))%Q (rows_of T cov j) <> []) as Hne'.
  { intros E. apply map_eq_nil in E. auto. }
  assert (/ Qn N <= u <= 1)%Q as [Hlo Hhi].
  { apply qmean_bounds; [exact Hne'|]. intros x Hx. apply in_map_iff in Hx. destruct Hx as (t & <- & Ht).
    specialize (Hc t Ht). split.
    - apply Qinv_anti; [apply Qn_pos; lia|apply Qn_le; lia].
    - change 1%Q with (/ 1)%Q. apply Qinv_anti; [reflexivity|]. apply Qn_ge1. lia. }
  assert (0 < / Qn N)%Q by (apply Qinv_pos, Qn_pos; lia).
  split; [repeat split; auto; lra|].
  set (rows := rows_of T cov j) in *.
  assert (0 < Qn (length rows))%Q as Hlen by (apply Qn_pos; destruct rows; [congruence|simpl; lia]).
  assert (qsum (map (fun _ : nat => 1%Q) rows) == Qn (length rows))%Q as Hones by (rewrite qsum_map_const; ring).
  split.
  - intros Hu i Hi Hne2 (t & Ht & H1 & H2).
    assert (qsum (map (fun t => / Qn (count (cov t) (seq 0 N)))%Q rows) < qsum (map (fun _ : nat => 1%Q) rows))%Q as Hlt.
    { apply qsum_map_lt.
      - intros x Hx. specialize (Hc x Hx). change 1%Q with (/ 1)%Q. apply Qinv_anti; [reflexivity|]. apply Qn_ge1; lia.
      - exists t. split; [apply rows_of_In; auto|].
        pose proof (count_two (cov t) N i j Hi Hj Hne2 H1 H2). change 1%Q with (/ 1)%Q. apply Qinv_anti_lt; [reflexivity|].
        change 1%Q with (Qn 1). apply Qn_lt. lia. }
    assert (u < 1)%Q; [|lra]. unfold u, mean_inverse_concurrency, qmean. fold rows. rewrite map_length.
    apply Qlt_shift_div_r; [exact Hlen|]. rewrite Hones in Hlt. lra.
  - intros Hno. unfold u, mean_inverse_concurrency, qmean. fold rows. rewrite map_length.
    rewrite (qsum_map_ext _ (fun _ => 1%Q)).
    + rewrite Hones. field. lra.
    + intros t Ht. assert (count (cov t) (seq 0 N) = 1) as ->; [|reflexivity].
      apply rows_of_In in Ht. apply (count_one _ _ j); [auto|tauto|].
      intros i Hi Hij. destruct (cov t i) eqn:E; [|reflexivity]. exfalso. apply (Hno i Hi Hij). exists t. tauto.
Qed.
