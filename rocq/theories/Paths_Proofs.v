(** Proofs about the frames of the combinatorial backtest. *)
From Coq Require Import String Sorting.Permutation.
From Verif Require Import Prelude PreludeFacts Num Series Pipe_Model CV_Model Paths_Model Paths_Spec.
Local Open Scope nat_scope.

(** * Shuffling by positions *)

Lemma permute_map_nth {T} (l : list T) : flat_map (fun i => match nth_error l i with Some x => [x] | None => [] end) (seq 0 (List.length l)) = l.
Proof.
  assert (G : forall (a b : list T), flat_map (fun i => match nth_error (a ++ b) i with Some x => [x] | None => [] end) (seq (List.length a) (List.length b)) = b).
  { intros a b. revert a. induction b as [|x b IH]; intros a; cbn [List.length seq flat_map]; [reflexivity|].
    rewrite nth_error_app2, Nat.sub_diag by lia. cbn [nth_error app]. f_equal.
    specialize (IH (a ++ [x])). rewrite <- app_assoc in IH. cbn [app] in IH. rewrite app_length in IH. cbn [List.length] in IH.
    rewrite Nat.add_1_r in IH. exact IH. }
  exact (G [] l).
Qed.
Lemma permute_perm {T} order (l : list T) : Permutation order (seq 0 (List.length l)) -> Permutation (permute order l) l.
Proof. intros H. unfold permute. rewrite (Permutation_flat_map _ H). now rewrite permute_map_nth. Qed.

Lemma Forall2_nth_none {U V} (R : U -> V -> Prop) l1 l2 i : Forall2 R l1 l2 -> nth_error l1 i = None -> nth_error l2 i = None.
Proof. intros H Hi. apply nth_error_None in Hi. apply nth_error_None. rewrite <- (Forall2_len _ _ _ H). exact Hi. Qed.
Lemma permute_rel {U V} (R : U -> V -> Prop) order l1 l2 : Forall2 R l1 l2 -> Forall2 R (permute order l1) (permute order l2).
Proof.
  intros H. unfold permute. induction order as [|i order IH]; cbn [flat_map]; [constructor|]. apply Forall2_app; [|exact IH].
  destruct (nth_error l1 i) as [x|] eqn:E.
  - destruct (Forall2_nth _ _ _ _ _ H E) as (y & E' & Hxy). rewrite E'. constructor; [exact Hxy|constructor].
  - rewrite (Forall2_nth_none _ _ _ _ H E). constructor.
Qed.
Lemma Forall2_rev {U V} (R : U -> V -> Prop) l1 l2 : Forall2 R l1 l2 -> Forall2 R (rev l1) (rev l2).
Proof. induction 1; cbn; [constructor|]. apply Forall2_app; auto. Qed.
Lemma pop_rel {U V} (R : U -> V -> Prop) l1 l2 : Forall2 R l1 l2 ->
  (pop l1 = Err IndexError /\ pop l2 = Err IndexError) \/
  (exists x r y s, pop l1 = Ok (x, r) /\ pop l2 = Ok (y, s) /\ R x y /\ Forall2 R r s).
Proof.
  intros H. apply Forall2_rev in H. unfold pop. inversion H as [|x y r s Hxy Hrs]; subst; [now left|right].
  exists x, (rev r), y, (rev s). repeat split; auto. now apply Forall2_rev.
Qed.

Lemma map_fst_combine {U V} (l1 : list U) : forall l2 : list V, List.length l1 = List.length l2 -> map fst (combine l1 l2) = l1.
Proof. induction l1 as [|x l1 IH]; intros [|z l2] H; try discriminate; [reflexivity|]. cbn. f_equal. apply IH. now inversion H. Qed.

Section Paths.
  Context {A : Type} {HA : Arith A} {S : Type}.
  Notation cell := (ext A).
  Variables (p : signal_pipeline A S) (X y : frame A) (label : nat).
  Notation n := (List.length (rows X)).

  (** * One sub test set *)

  Lemma iloc_total (f : frame A) l : (forall i, In i l -> i < List.length (rows f)) -> exists v, iloc f l = Ok v /\ List.length v = List.length l.
  Proof.
    intros H. unfold iloc. induction l as [|i l IH]; [exists []; split; reflexivity|].
    destruct (get_lt (rows f) i) as (r & E & _); [apply H; now left|]. destruct IH as (v & Ev & Lv); [intros j Hj; apply H; now right|].
    exists (snd r :: v). cbn [mapM]. rewrite E. cbn [bind]. rewrite Ev. cbn [bind List.length]. split; [reflexivity|now rewrite Lv].
  Qed.

  Lemma found_none t : filter (fun e : Z * list cell => Z.eqb (fst e) t) (rows y) = [] <-> ~ In t (index y).
  Proof.
    unfold index. split.
    - intros H Hin. apply in_map_iff in Hin. destruct Hin as (e & He & Hin).
      assert (In e (filter (fun e : Z * list cell => Z.eqb (fst e) t) (rows y))) as Hf by (apply filter_In; split; [exact Hin|now apply Z.eqb_eq]).
      rewrite H in Hf. exact Hf.
    - intros H. destruct (filter _ _) as [|e l] eqn:E; [reflexivity|exfalso]. apply H.
      assert (In e (e :: l)) as Hf by now left. rewrite <- E in Hf. apply filter_In in Hf. destruct Hf as (Hin & Ht). apply Z.eqb_eq in Ht.
      subst t. now apply in_map.
  Qed.
  Lemma found_length t : List.length (filter (fun e : Z * list cell => Z.eqb (fst e) t) (rows y)) = count_occ Z.eq_dec (index y) t.
  Proof.
    unfold index. induction (rows y) as [|e l IH]; cbn [filter map count_occ]; [reflexivity|].
    destruct (Z.eqb_spec (fst e) t) as [->|Hne]; destruct (Z.eq_dec _ _); try congruence; cbn [List.length]; now rewrite IH.
  Qed.

  Lemma merge_left_In t v cells l : In (t, (v, cells)) (merge_left l y) -> In (t, v) l /\ labels_at y t cells.
  Proof.
    unfold merge_left. rewrite in_flat_map. intros (r & Hr & Hin). destruct r as [u w]. cbn [fst snd] in Hin.
    destruct (filter _ _) as [|e found] eqn:E.
    - destruct Hin as [Hin|[]]. inversion Hin; subst. split; [exact Hr|right]. split; [now apply found_none|reflexivity].
    - assert (G : exists e', In e' (e :: found) /\ (u, (w, snd e')) = (t, (v, cells))).
      { apply in_map_iff in Hin. destruct Hin as (e' & H1 & H2). now exists e'. }
      destruct G as (e' & H1 & H2). inversion H2; subst. split; [exact Hr|left]. rewrite <- E in H1. apply filter_In in H1.
      destruct H1 as (H1 & H3). cbn in H3. apply Z.eqb_eq in H3. rewrite <- H3. destruct e'; exact H1.
  Qed.

  Definition copies (t : Z) : list Z := repeat t (count_occ Z.eq_dec (index y) t).
  Lemma merge_left_times l : (forall r, In r l -> In (fst r) (index y)) -> map fst (merge_left l y) = flat_map copies (map fst l).
  Proof.
    intros H. induction l as [|r l IH]; [reflexivity|]. specialize (IH (fun r' Hr => H r' (or_intror Hr))). unfold merge_left in IH |- *. cbn [flat_map map].
    etransitivity; [apply map_app|]. apply f_equal2; [|exact IH].
    unfold copies. rewrite <- found_length. specialize (H r (or_introl eq_refl)).
    destruct (filter _ _) as [|e found] eqn:E; [exfalso; now apply found_none in E|].
    change (map fst (map (fun e0 : Z * list cell => (fst r, (snd r, snd e0))) (e :: found)) = repeat (fst r) (List.length (e :: found))).
    generalize (e :: found). clear. intros l. induction l as [|e' l IH]; [reflexivity|]. cbn [List.length repeat]. rewrite <- IH. reflexivity.
  Qed.

  Lemma sub_frame_spec s part fr : sub_frame p s X y part = Ok fr ->
    exists times column, mapM (get (index X)) part = Ok times /\ map fst column = times /\ fr = merge_left column y /\
      forall t pr mp, In (t, (pr, mp)) column -> exists i probs, In i part /\ nth_error (index X) i = Some t /\ says p s X part i pr probs /\ row_max probs = Ok mp.
  Proof.
    unfold sub_frame. destruct (mapM (get (index X)) part) as [times|] eqn:Et; cbn [bind]; [|discriminate].
    destruct (iloc X part) as [values|] eqn:Ev; cbn [bind]; [|discriminate].
    destruct (sp_predict p s values) as [predictions|] eqn:Ep; cbn [bind]; [|discriminate].
    unfold make_series. destruct (Nat.eqb_spec (List.length times) (List.length predictions)) as [L1|L1]; cbn [bind]; [|discriminate].
    destruct (sp_proba p s values) as [proba|] eqn:Eq; cbn [bind]; [|discriminate].
    destruct (mapM row_max proba) as [largest|] eqn:El; cbn [bind]; [|discriminate].
    destruct (Nat.eqb_spec (List.length largest) (List.length times)) as [L2|L2]; cbn [negb raise_if bind]; [|discriminate].
    intros E; inversion E; subst fr. clear E.
    assert (Lc : List.length (combine times predictions) = List.length largest) by (rewrite combine_length; lia).
    exists times, (map (fun r => (fst (fst r), (snd (fst r), snd r))) (combine (combine times predictions) largest)).
    split; [reflexivity|]. split.
    { rewrite map_map. cbn [fst]. rewrite <- (map_map fst fst). rewrite map_fst_combine; [|exact Lc]. apply map_fst_combine. exact L1. }
    split; [reflexivity|].
    intros t pr mp Hin. apply in_map_iff in Hin. destruct Hin as (r & Hr & Hin). apply In_nth_error in Hin. destruct Hin as (q & Hq).
    destruct r as [[t' pr'] mp']. cbn in Hr. inversion Hr; subst.
    assert (G : nth_error times q = Some t /\ nth_error predictions q = Some pr /\ nth_error largest q = Some mp).
    { clear -Hq. revert predictions largest q Hq. induction times as [|a times IH]; intros [|b predictions] [|d largest] q Hq; cbn in Hq; try (destruct q; discriminate).
      destruct q as [|q]; cbn in *; [inversion Hq; auto|now apply IH]. }
    destruct G as (G1 & G2 & G3).
    assert (H1 : exists i, nth_error part q = Some i /\ nth_error (index X) i = Some t).
    { pose proof (mapM_length _ _ _ Et) as Lt. destruct (nth_error part q) as [i|] eqn:Ei.
      - destruct (mapM_nth _ _ _ _ _ Et Ei) as (t' & Ht & Hg). rewrite G1 in Ht. inversion Ht; subst t'. exists i. split; [reflexivity|now apply get_Ok].
      - apply nth_error_None in Ei. assert (q < List.length times) by (apply nth_error_Some; congruence). lia. }
    destruct H1 as (i & Hi & Hti).
    assert (H2 : exists probs, nth_error proba q = Some probs /\ row_max probs = Ok mp).
    { pose proof (mapM_length _ _ _ El) as Ll. destruct (nth_error proba q) as [probs|] eqn:Ei.
      - destruct (mapM_nth _ _ _ _ _ El Ei) as (m' & Hm & Hg). rewrite G3 in Hm. inversion Hm; subst m'. exists probs. auto.
      - apply nth_error_None in Ei. assert (q < List.length largest) by (apply nth_error_Some; congruence). lia. }
    destruct H2 as (probs & Hp & Hm).
    exists i, probs. split; [now apply nth_error_In in Hi|]. split; [exact Hti|]. split; [|exact Hm].
    exists values, predictions, proba, q. auto 7.
  Qed.

  Lemma sub_frame_total s part : usable p -> (forall i, In i part -> i < n) -> exists fr, sub_frame p s X y part = Ok fr.
  Proof.
    intros (_ & Hu) Hp. unfold sub_frame.
    assert (Ht : exists times, mapM (get (index X)) part = Ok times /\ List.length times = List.length part).
    { clear -Hp. induction part as [|i l IH]; [now exists []|].
      destruct (get_lt (index X) i) as (r & E & _); [unfold index; rewrite map_length; apply Hp; now left|].
      destruct IH as (v & Ev & Lv); [intros j Hj; apply Hp; now right|]. exists (r :: v). cbn [mapM]. rewrite E. cbn [bind]. rewrite Ev. cbn. now rewrite Lv. }
    destruct Ht as (times & Et & Lt). rewrite Et. cbn [bind].
    destruct (iloc_total X part Hp) as (values & Ev & Lv). rewrite Ev. cbn [bind].
    destruct (Hu s values) as (predictions & proba & Ep & Lp & Eq & Lq & Hne). rewrite Ep. cbn [bind]. unfold make_series.
    assert (El : Nat.eqb (List.length times) (List.length predictions) = true) by (apply Nat.eqb_eq; lia). rewrite El. cbn [bind].
    rewrite Eq. cbn [bind].
    assert (Hm : exists largest, mapM row_max proba = Ok largest /\ List.length largest = List.length proba).
    { clear -Hne. induction Hne as [|r l Hr Hl IH]; [now exists []|]. destruct IH as (v & Ev & Lv). destruct r as [|x r]; [congruence|].
      eexists. cbn [mapM row_max bind]. rewrite Ev. cbn [bind]. split; [reflexivity|cbn; now rewrite Lv]. }
    destruct Hm as (largest & Em & Lm). rewrite Em. cbn [bind].
    assert (E2 : Nat.eqb (List.length largest) (List.length times) = true) by (apply Nat.eqb_eq; lia). rewrite E2. cbn [negb raise_if bind]. eexists; reflexivity.
  Qed.

  (** * The dictionary *)

  Variables (splits : list (list nat * list nat)) (st0 : S).
  Definition made (x : subtest) (fr : list (path_row A)) : Prop :=
    exists s, fitted p X y label splits st0 (st_split x) s /\ sub_frame p s X y (st_rows x) = Ok fr /\
      exists train test, nth_error splits (st_split x) = Some (train, test) /\ incl (st_rows x) test.
  Definition same_dict (D : list (nat * list subtest)) (d : list (nat * list (list (path_row A)))) : Prop :=
    Forall2 (fun a b => fst a = fst b /\ Forall2 made (snd a) (snd b)) D d.

  Lemma append_rel D d k x fr : same_dict D d -> made x fr -> same_dict (dict_append D k x) (append_to d k fr).
  Proof.
    intros H Hm. induction H as [|[k1 l1] [k2 l2] D d (Hk & Hl) H IH]; cbn [dict_append append_to].
    - constructor; [|constructor]. cbn. auto.
    - cbn in Hk. subst k2. destruct (Nat.eqb k k1).
      + constructor; [|exact H]. cbn. split; [reflexivity|]. apply Forall2_app; auto.
      + constructor; [|exact IH]. auto.
  Qed.

  (* the state after the first k splits *)
  Definition after (k : nat) (s : S) : Prop := match k with O => s = st0 | Datatypes.S j => fitted p X y label splits st0 j s end.

  Hypothesis Huse : usable p.
  Hypothesis Hlen : List.length (rows y) = n.
  Hypothesis Hrange : forall train test, In (train, test) splits -> (forall i, In i train -> i < n) /\ (forall i, In i test -> i < n).

  Lemma bounds_loop s k train test bs : nth_error splits k = Some (train, test) -> fitted p X y label splits st0 k s -> forall D d, same_dict D d ->
    exists d', foldM (fun d b =>
        do f <- sub_frame p s X y (filter (fun i => Nat.leb (fst b) i && Nat.ltb i (snd b)) test) ;;
        Ok (append_to d (fst b) f)) d bs = Ok d' /\ same_dict (add_split k bs test D) d'.
  Proof.
    intros Hk Hf. unfold add_split. induction bs as [|b bs IH]; intros D d H; cbn [foldM fold_left]; [now exists d|].
    destruct (Hrange train test (nth_error_In _ _ Hk)) as (_ & Ht).
    destruct (sub_frame_total s (filter (fun i => Nat.leb (fst b) i && Nat.ltb i (snd b)) test) Huse) as (fr & Efr).
    { intros i Hi. apply filter_In in Hi. now apply Ht. }
    rewrite Efr. cbn [bind]. apply IH. apply append_rel; [exact H|]. exists s. split; [exact Hf|]. split; [exact Efr|].
    exists train, test. split; [exact Hk|]. intros i Hi. cbn in Hi. now apply filter_In in Hi.
  Qed.

  Lemma one_split_eq d bs train test : one_split p X y label d (bs, (train, test)) =
    (do values <- iloc X train ;;
     do labels <- iloc y train ;;
     do st <- sp_fit p (fst d) values (map (fun r => nth label r NaN) labels) ;;
     do d' <- foldM (fun d b =>
       do f <- sub_frame p st X y (filter (fun i => Nat.leb (fst b) i && Nat.ltb i (snd b)) test) ;;
       Ok (append_to d (fst b) f)) (snd d) bs ;;
     Ok (st, d')).
  Proof. reflexivity. Qed.

  Lemma splits_loop bounds : forall ss k s D d, skipn k splits = ss -> List.length bounds = List.length ss -> after k s -> same_dict D d ->
    exists s' d', foldM (one_split p X y label) (s, d) (combine bounds ss) = Ok (s', d') /\ same_dict (build_dict k (combine bounds (map snd ss)) D) d'.
  Proof.
    induction bounds as [|bs bounds IH]; intros [|[train test] ss] k s D d Hsk HL Ha H; try discriminate HL; [exists s, d; split; [reflexivity|exact H]|].
    assert (Hk : nth_error splits k = Some (train, test)).
    { rewrite <- (firstn_skipn k splits), Hsk. assert (k < List.length splits).
      { destruct (Nat.lt_ge_cases k (List.length splits)) as [L|L]; [exact L|]. rewrite skipn_all2 in Hsk by exact L. discriminate. }
      rewrite nth_error_app2; rewrite firstn_length, Nat.min_l by lia; [now rewrite Nat.sub_diag|lia]. }
    destruct (Hrange train test (nth_error_In _ _ Hk)) as (Htr & _).
    cbn [combine map foldM build_dict snd]. rewrite one_split_eq. cbn [fst snd].
    destruct (iloc_total X train Htr) as (values & Ev & Lv). rewrite Ev. cbn [bind].
    destruct (iloc_total y train) as (labels & El & Ll); [rewrite Hlen; exact Htr|]. rewrite El. cbn [bind].
    destruct Huse as (Hfit & _). destruct (Hfit s values (map (fun r => nth label r NaN) labels)) as (s' & Es); [rewrite map_length; lia|].
    rewrite Es. cbn [bind].
    assert (Hf : fitted p X y label splits st0 k s').
    { destruct k as [|j]; [cbn in Ha; subst s; eapply first_split; eauto|]. exact (next_split _ _ _ _ _ _ j s s' train test values labels Ha Hk Ev El Es). }
    destruct (bounds_loop s' k train test bs Hk Hf D d H) as (d' & Ed & Hd'). rewrite Ed. cbn [bind snd].
    apply IH; auto.
    change (Datatypes.S k) with (1 + k).
    replace (skipn (1 + k) splits) with (skipn 1 (skipn k splits)); [now rewrite Hsk|].
    clear. revert splits. induction k as [|k IH]; intros l; [reflexivity|]. destruct l as [|x l]; [reflexivity|]. exact (IH l).
  Qed.

  (** * The paths *)

  Variable order : nat -> nat -> nat -> list nat.
  Definition by_position (i k : nat) (l : list subtest) : list subtest := permute (order i k (List.length l)) l.

  Lemma take_path_rel i D d : same_dict D d ->
    (exists e, one_path (by_position i) D = Err e /\ take_path (order i) d = Err e) \/
    (exists sts D' frs d', one_path (by_position i) D = Ok (sts, D') /\ take_path (order i) d = Ok (concat frs, d') /\ Forall2 made sts frs /\ same_dict D' d').
  Proof.
    induction 1 as [|[k l1] [k2 l2] D d (Hk & Hl) H IH]; [right; exists [], [], [], []; repeat split; constructor|].
    cbn in Hk, Hl. subst k2. cbn [one_path take_path]. unfold by_position at 1 3. rewrite <- (Forall2_len _ _ _ Hl).
    destruct (pop_rel made _ _ (permute_rel made (order i k (List.length l1)) _ _ Hl)) as [(E1 & E2)|(x & r & fr & r' & E1 & E2 & Hx & Hr)]; rewrite E1, E2; cbn [bind].
    - left. exists IndexError. auto.
    - destruct IH as [(e & E3 & E4)|(sts & D' & frs & d' & E3 & E4 & Hs & Hd)]; rewrite E3, E4; cbn [bind fst snd]; [left; now exists e|right].
      exists (x :: sts), ((k, r) :: D'), (fr :: frs), ((k, r') :: d'). split; [reflexivity|]. split; [reflexivity|].
      split; constructor; auto.
  Qed.

  Definition path_of (sts : list subtest) (f : list (path_row A)) : Prop := exists frs, Forall2 made sts frs /\ f = concat frs.
  Lemma take_paths_rel m : forall i D d, same_dict D d ->
    (exists e, paths_loop by_position i m D = Err e /\ take_paths order i m d = Err e) \/
    (exists paths frames, paths_loop by_position i m D = Ok paths /\ take_paths order i m d = Ok frames /\ Forall2 path_of paths frames).
  Proof.
    induction m as [|m IH]; intros i D d H; cbn [paths_loop take_paths]; [right; exists [], []; auto|].
    destruct (take_path_rel i D d H) as [(e & E1 & E2)|(sts & D' & frs & d' & E1 & E2 & Hs & Hd)]; rewrite E1, E2; cbn [bind fst snd]; [left; now exists e|].
    destruct (IH (Datatypes.S i) D' d' Hd) as [(e & E3 & E4)|(paths & frames & E3 & E4 & Hp)]; rewrite E3, E4; cbn [bind fst snd]; [left; now exists e|right].
    exists (sts :: paths), (concat frs :: frames). split; [reflexivity|]. split; [reflexivity|]. constructor; [now exists frs|exact Hp].
  Qed.

  (** The paths of the frames are the paths of the row positions. *)
  Lemma path_frames_rel (c : cv) (name : string) : column_position (columns y) name = Ok label -> split c n = Ok splits ->
    (exists e, cv_paths c n by_position = Err e /\ path_frames c p st0 X y name order = Err e) \/
    (exists paths frames, cv_paths c n by_position = Ok paths /\ path_frames c p st0 X y name order = Ok frames /\ Forall2 path_of paths frames).
  Proof.
    intros Hlab Hsp. unfold path_frames, cv_paths. rewrite Hlab. cbn [bind]. 
    destruct (test_fold_bounds c n) as [bounds|e] eqn:Eb; cbn [bind]; [|left; now exists e]. rewrite Hsp. cbn [bind].
    assert (HL : List.length bounds = List.length splits).
    { unfold split in Hsp. rewrite Eb in Hsp. cbn [bind] in Hsp. symmetry. eapply mapM_length; eauto. }
    destruct (splits_loop bounds splits 0 st0 [] []) as (s' & d' & Ed & Hd); [reflexivity|exact HL|reflexivity|constructor|].
    rewrite Ed. cbn [bind snd]. destruct (compute_back_test_paths _ _) as [np|e]; cbn [bind]; [|left; now exists e]. now apply take_paths_rel.
  Qed.

  (** * The rows of a path *)

  Lemma path_row_origin sts f t pr mp cells : path_of sts f -> In (t, (pr, mp, cells)) f ->
    exists i j s train test block probs, In (j, i) (path_predictions sts) /\ nth_error (index X) i = Some t /\
      nth_error splits j = Some (train, test) /\ In i test /\ incl block test /\ fitted p X y label splits st0 j s /\
      says p s X block i pr probs /\ row_max probs = Ok mp /\ labels_at y t cells.
  Proof.
    intros (frs & HF & ->) Hin. apply in_concat in Hin. destruct Hin as (fr & Hfr & Hin).
    assert (G : exists x, In x sts /\ made x fr).
    { clear -HF Hfr. induction HF as [|x f0 sts frs Hx HF IH]; [destruct Hfr|]. destruct Hfr as [<-|Hfr]; [exists x; split; [now left|exact Hx]|].
      destruct (IH Hfr) as (x' & H1 & H2). exists x'. split; [now right|exact H2]. }
    destruct G as (x & Hx & s & Hs & Esub & train & test & Hk & Hincl).
    destruct (sub_frame_spec _ _ _ Esub) as (times & column & _ & _ & -> & Hcol). apply merge_left_In in Hin. destruct Hin as (Hin & Hlab).
    destruct (Hcol _ _ _ Hin) as (i & probs & Hi & Ht & Hsays & Hmax).
    exists i, (st_split x), s, train, test, (st_rows x), probs. split.
    { unfold path_predictions. apply in_flat_map. exists x. split; [exact Hx|]. apply in_map_iff. now exists i. }
    split; [exact Ht|]. split; [exact Hk|]. split; [now apply Hincl|]. split; [exact Hincl|]. split; [exact Hs|]. auto.
  Qed.

  Definition time_at (i : nat) : Z := nth i (index X) 0%Z.
  Lemma times_of part times : mapM (get (index X)) part = Ok times -> times = map time_at part.
  Proof.
    revert times. induction part as [|i part IH]; intros times E; cbn [mapM] in E; [inversion E; reflexivity|].
    destruct (get (index X) i) as [t|] eqn:Eg; cbn [bind] in E; [|discriminate]. destruct (mapM _ part) as [ts|]; cbn [bind] in E; [|discriminate].
    inversion E; subst. cbn [map]. f_equal; [|now apply IH]. apply get_Ok in Eg. unfold time_at. symmetry. now apply nth_error_nth.
  Qed.

  Lemma path_times sts f : index y = index X -> path_of sts f -> map fst f = flat_map copies (map time_at (map snd (path_predictions sts))).
  Proof.
    intros Hix (frs & HF & ->). induction HF as [|x fr sts frs (s & Hs & Esub & _) HF IH]; [reflexivity|].
    change (concat (fr :: frs)) with (fr ++ concat frs). etransitivity; [apply map_app|]. etransitivity; [apply f_equal2; [reflexivity|exact IH]|].
    assert (E : path_predictions (x :: sts) = map (pair (st_split x)) (st_rows x) ++ path_predictions sts) by reflexivity.
    rewrite E, !map_app, flat_map_app. apply f_equal2; [|reflexivity].
    rewrite (map_map (pair (st_split x)) snd). cbn [snd]. rewrite map_id.
    destruct (sub_frame_spec _ _ _ Esub) as (times & column & Et & Hc & -> & Hcol).
    rewrite merge_left_times; [now rewrite Hc, (times_of _ _ Et)|].
    intros [t [pr mp]] Hr. cbn [fst]. destruct (Hcol _ _ _ Hr) as (i & probs & _ & Ht & _). rewrite Hix. now apply nth_error_In in Ht.
  Qed.

  Lemma map_time_at : map time_at (seq 0 n) = index X.
  Proof.
    unfold time_at. assert (E : n = List.length (index X)) by (unfold index; now rewrite map_length). rewrite E. clear.
    assert (G : forall a b : list Z, map (fun i => nth i (a ++ b) 0%Z) (seq (List.length a) (List.length b)) = b).
    { intros a b. revert a. induction b as [|x b IH]; intros a; cbn [List.length seq map]; [reflexivity|]. f_equal; [now rewrite nth_middle|].
      specialize (IH (a ++ [x])). rewrite <- app_assoc, app_length in IH. cbn [app List.length] in IH. rewrite Nat.add_1_r in IH. exact IH. }
    exact (G [] (index X)).
  Qed.

  Lemma count_repeat t u k : count_occ Z.eq_dec (repeat u k) t = if Z.eq_dec u t then k else 0.
  Proof. induction k as [|k IH]; cbn; [now destruct (Z.eq_dec u t)|]. destruct (Z.eq_dec u t); now rewrite IH. Qed.
  Lemma count_copies t l : count_occ Z.eq_dec (flat_map copies l) t = count_occ Z.eq_dec l t * count_occ Z.eq_dec (index y) t.
  Proof.
    induction l as [|u l IH]; [reflexivity|]. cbn [flat_map]. rewrite count_occ_app, IH. unfold copies at 1. rewrite count_repeat.
    cbn [count_occ]. destruct (Z.eq_dec u t) as [->|]; lia.
  Qed.

  Lemma path_squares sts f t : index y = index X -> path_of sts f -> Permutation (map snd (path_predictions sts)) (seq 0 n) ->
    occurrences t (map fst f) = occurrences t (index X) * occurrences t (index X).
  Proof.
    intros Hix Hp HP. unfold occurrences. rewrite (path_times sts f Hix Hp), count_copies, Hix. f_equal.
    assert (HQ : Permutation (map time_at (map snd (path_predictions sts))) (index X)) by (rewrite <- map_time_at; now apply Permutation_map).
    now apply Permutation_count_occ.
  Qed.
End Paths.
