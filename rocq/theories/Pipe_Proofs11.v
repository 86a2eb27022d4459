(** The feature transformers of a strategy (C88), and data sets in which nothing is dropped (C54). *)
From Coq Require Import String QArith.
From Verif Require Import Prelude PreludeFacts Num Pipe_Model Pipe_Spec Pipe_Spec2 Pipe_Proofs2 Pipe_Proofs3 Pipe_Proofs4 Pipe_Proofs9.
Open Scope nat_scope.

Section Features.
  Context {A : Type} {HA : Arith A}.

  Lemma lookup_In {V} (d : dict V) k v : lookup d k = Ok v -> In (k, v) d.
  Proof.
    induction d as [|[k' v'] d IH]; cbn; [discriminate|]. destruct (String.eqb k' k) eqn:E.
    - intros [= ->]. apply String.eqb_eq in E. subst. now left.
    - intros H. right. now apply IH.
  Qed.
  Lemma lookup_missing {V} (d : dict V) k : ~ In k (map fst d) -> lookup d k = Err KeyError.
  Proof.
    induction d as [|[k' v'] d IH]; cbn; intros H; [reflexivity|]. destruct (String.eqb k' k) eqn:E; [apply String.eqb_eq in E; tauto|apply IH; tauto].
  Qed.
  Lemma lookup_present {V} (d : dict V) k : In k (map fst d) -> exists v, lookup d k = Ok v.
  Proof.
    induction d as [|[k' v'] d IH]; cbn; [tauto|]. intros [->|H]; [rewrite String.eqb_refl; eauto|]. destruct (String.eqb k' k); eauto.
  Qed.

  Lemma existsb_name k l : existsb (String.eqb k) l = true <-> In k l.
  Proof.
    rewrite existsb_exists. split; [intros (x & H & E); apply String.eqb_eq in E; now subst|intros H; exists k; split; [exact H|apply String.eqb_refl]].
  Qed.
  Lemma same_keys_spec a b : same_keys a b = true <-> forall k, In k b <-> In k a.
  Proof.
    unfold same_keys. rewrite andb_true_iff, !forallb_forall. split.
    - intros (H1 & H2) k. split; intros H; [apply existsb_name, H2, H|apply existsb_name, H1, H].
    - intros H. split; intros k Hk; apply existsb_name, H, Hk.
  Qed.
  Lemma same_keys_expected (p : pipeline A) X : same_keys (keys (primary_transformers p) ++ keys (meta_transformers p)) (keys X) = true <-> expected_names p X.
  Proof. rewrite same_keys_spec. unfold expected_names, keys. split; intros H k; rewrite (H k), in_app_iff; reflexivity. Qed.

  Lemma run_transformers_ok (ts : dict (option (frame A -> result (frame A)))) X d : run_transformers ts X = Ok d -> Forall2 (made_by X) ts d.
  Proof.
    unfold run_transformers. intros H. apply mapM_Ok in H. induction H as [|[k tr] [k' g] ts d Hh _ IH]; constructor; [|exact IH]. clear IH. revert Hh. cbn.
    destruct (lookup X k) as [f|] eqn:Ef; [|discriminate]. cbn [bind]. apply lookup_In in Ef.
    destruct tr as [t|]; [destruct (t f) as [g'|] eqn:Et; [|discriminate]|]; cbn [bind]; intros [= <- <-]; (split; [reflexivity|]); exists f; cbn; auto.
  Qed.

  Theorem transform_ok (p : pipeline A) X P M : transform p X = Ok (P, M) ->
    expected_names p X /\ Forall2 (made_by X) (primary_transformers p) P /\ Forall2 (made_by X) (meta_transformers p) M.
  Proof.
    unfold transform. destruct (same_keys _ _) eqn:E; [|discriminate]. cbn [negb raise_if bind]. apply same_keys_expected in E.
    destruct (run_transformers (primary_transformers p) X) as [P0|] eqn:EP; [|discriminate]. destruct (run_transformers (meta_transformers p) X) as [M0|] eqn:EM; [|discriminate].
    cbn [bind]. intros [= <- <-]. split; [exact E|]. split; now apply run_transformers_ok.
  Qed.

  Theorem features_wrong_names (p : pipeline A) X : ~ expected_names p X -> transform p X = Err AssertionError /\ features_of p X = Err AssertionError.
  Proof.
    intros H. assert (E : transform p X = Err AssertionError).
    { unfold transform. destruct (same_keys _ _) eqn:E; [apply same_keys_expected in E; contradiction|reflexivity]. }
    split; [exact E|]. unfold features_of. now rewrite E.
  Qed.

  (** The features can be computed exactly if the names fit and every transformer accepts its frame. *)
  Theorem transform_accepts (p : pipeline A) X :
    is_ok (transform p X) = true <->
    expected_names p X /\ forall name t, In (name, Some t) (primary_transformers p ++ meta_transformers p) -> exists f, lookup X name = Ok f /\ is_ok (t f) = true.
  Proof.
    assert (G : forall ts, (forall k, In k (map fst ts) -> In k (map fst X)) ->
      (is_ok (run_transformers ts X) = true <-> forall name t, In (name, Some t) ts -> exists f, lookup X name = Ok f /\ is_ok (t f) = true)).
    { intros ts. induction ts as [|[k tr] ts IH]; intros Hk; [cbn; intuition|].
      assert (Hk' : forall k, In k (map fst ts) -> In k (map fst X)) by (intros k' H'; apply Hk; now right). specialize (IH Hk').
      destruct (lookup_present X k (Hk k (or_introl eq_refl))) as (f & Ef). unfold run_transformers in *. cbn [mapM fst snd]. rewrite Ef. cbn [bind].
      destruct tr as [t|].
      - destruct (t f) as [g|e] eqn:Et; cbn [bind].
        + destruct (mapM _ ts) as [r|e]; cbn [bind is_ok] in *.
          * split; [|reflexivity]. intros _ name t' [E|H]; [|now apply (proj1 IH eq_refl)]. injection E as <- <-. exists f. rewrite Et. auto.
          * split; [discriminate|]. intros H. apply IH. intros name t' H'. apply H. now right.
        + split; [discriminate|]. intros H. destruct (H k t (or_introl eq_refl)) as (f' & Ef' & Ht). rewrite Ef in Ef'. injection Ef' as <-. now rewrite Et in Ht.
      - destruct (mapM _ ts) as [r|e]; cbn [bind is_ok] in *.
        + split; [|reflexivity]. intros _ name t' [E|H]; [discriminate|now apply (proj1 IH eq_refl)].
        + split; [discriminate|]. intros H. apply IH. intros name t' H'. apply H. now right. }
    unfold transform. destruct (same_keys _ _) eqn:E; cbn [negb raise_if bind].
    - apply same_keys_expected in E.
      assert (G1 := G (primary_transformers p) (fun k H => proj2 (E k) (or_introl H))). assert (G2 := G (meta_transformers p) (fun k H => proj2 (E k) (or_intror H))).
      split.
      + destruct (run_transformers (primary_transformers p) X); [|discriminate]. destruct (run_transformers (meta_transformers p) X); [|discriminate]. intros _. split; [exact E|].
        intros name t H. apply in_app_or in H. destruct H as [H|H]; [now apply (proj1 G1 eq_refl)|now apply (proj1 G2 eq_refl)].
      + intros (_ & H). assert (H1 : is_ok (run_transformers (primary_transformers p) X) = true) by (apply G1; intros name t Hi; apply H, in_or_app; now left).
        assert (H2 : is_ok (run_transformers (meta_transformers p) X) = true) by (apply G2; intros name t Hi; apply H, in_or_app; now right).
        destruct (run_transformers (primary_transformers p) X); [|discriminate]. destruct (run_transformers (meta_transformers p) X); [|discriminate]. reflexivity.
    - split; [discriminate|]. intros (H & _). apply same_keys_expected in H. congruence.
  Qed.

  Theorem features_not_aligned (p : pipeline A) X : align_on p = ""%string -> features_of p X = transform p X.
  Proof. intros E. unfold features_of. destruct (transform p X) as [t|]; [|reflexivity]. cbn [bind]. unfold align. now rewrite E. Qed.

  Lemma made_keys X (ts : dict (option (frame A -> result (frame A)))) d : Forall2 (made_by X) ts d -> map fst d = map fst ts.
  Proof. induction 1 as [|a b ts d (H & _) _ IH]; [reflexivity|]. cbn. now rewrite H, IH. Qed.
  Lemma align_dict_keys (p : pipeline A) al d d' : align_dict p al d = Ok d' -> map fst d' = map fst d.
  Proof.
    unfold align_dict. intros H. apply mapM_Ok in H. induction H as [|[k f] [k' g] d d' H _ IH]; [reflexivity|]. cbn [map fst]. rewrite IH. f_equal.
    cbn in H. destruct (String.eqb _ _); [injection H as -> ->; reflexivity|]. destruct (align_frame _ _ _ _); [|discriminate]. now injection H as -> _.
  Qed.

  Theorem features_keys (p : pipeline A) X P M : features_of p X = Ok (P, M) -> map fst P = map fst (primary_transformers p) /\ map fst M = map fst (meta_transformers p).
  Proof.
    unfold features_of. destruct (transform p X) as [[P0 M0]|] eqn:E; [|discriminate]. cbn [bind]. destruct (transform_ok _ _ _ _ E) as (_ & HP & HM).
    apply made_keys in HP, HM. rewrite <- HP, <- HM. unfold align. cbn [fst snd]. destruct (String.eqb _ _); [intros [= <- <-]; auto|].
    destruct (lookup P0 _) as [lead|]; [|discriminate]. cbn [bind]. destruct (align_dict p _ P0) as [P1|] eqn:EP; [|discriminate]. destruct (align_dict p _ M0) as [M1|] eqn:EM; [|discriminate].
    cbn [bind]. intros [= <- <-]. split; eapply align_dict_keys; eauto.
  Qed.

  (** The features to align with must be among those of the primary model. *)
  Theorem features_no_lead (p : pipeline A) X : align_on p <> ""%string -> ~ In (align_on p) (map fst (primary_transformers p)) -> is_ok (transform p X) = true -> features_of p X = Err KeyError.
  Proof.
    intros Ha Hn Ht. unfold features_of. destruct (transform p X) as [[P0 M0]|] eqn:E; [|discriminate]. cbn [bind]. destruct (transform_ok _ _ _ _ E) as (_ & HP & _).
    unfold align. apply String.eqb_neq in Ha. rewrite Ha. cbn [fst]. apply made_keys in HP. rewrite <- HP in Hn. now rewrite (lookup_missing P0 _ Hn).
  Qed.

  (** ** Nothing dropped *)
  Theorem dataset_keeps_all (p : pipeline A) X y P M X' y' : features_of p X = Ok (P, M) -> Forall (fun f => NoDup (index f)) (map snd P) ->
    create_dataset_primary p X y false = Ok (X', y') ->
    y' = y /\ columns X' = concat (map columns (map snd P)) /\ NoDup (index X') /\
    (forall t, In t (index X') <-> exists f, In f (map snd P) /\ In t (index f)) /\
    (forall t row, In (t, row) (rows X') -> exists parts, row = concat parts /\ Forall2 (cells_or_missing t) (map snd P) parts).
  Proof.
    intros Hf HP H. unfold create_dataset_primary in H. destruct (raise_if _ _); [|discriminate]. cbn [bind] in H. rewrite Hf in H. cbn [bind fst align_X_dict_and_y] in H.
    destruct (concat_outer (map snd P)) as [g|] eqn:Eg; [|discriminate]. cbn [bind] in H. injection H as <- <-.
    assert (Hne : map snd P <> []) by (intros E; rewrite E in Eg; discriminate).
    destruct (concat_outer_frame (map snd P) Hne HP) as (g' & Eg' & Cg & _ & Ng & Tg & Rg). rewrite Eg in Eg'. injection Eg' as <-.
    split; [reflexivity|]. split; [exact Cg|]. split; [exact Ng|]. split; [exact Tg|]. intros t row Hr. exists (map (fun f => row_at f t) (map snd P)).
    split; [now apply Rg|]. clear -HP. induction HP as [|f l Hf Hl IH]; [constructor|]. cbn [map]. constructor; [|exact IH].
    destruct (in_dec Z.eq_dec t (index f)) as [Hi|Hi]; [left; now apply In_row_at|right]. split; [exact Hi|now apply row_at_none].
  Qed.
  (** ... and with distinct times it never fails, for valid labels and at least one set of features. *)
  Theorem dataset_keeps_all_accepts (p : pipeline A) X y P M : features_of p X = Ok (P, M) -> Forall (fun f => NoDup (index f)) (map snd P) -> P <> [] -> labels_ok y = true ->
    is_ok (create_dataset_primary p X y false) = true.
  Proof.
    intros Hf HP Hne Hy. unfold create_dataset_primary. rewrite Hy. cbn [negb raise_if bind]. rewrite Hf. cbn [bind fst align_X_dict_and_y].
    assert (Hne' : map snd P <> []) by (destruct P; [congruence|discriminate]).
    destruct (concat_outer_frame (map snd P) Hne' HP) as (g & -> & _). reflexivity.
  Qed.
End Features.

(** The features of a strategy whose features are aligned. *)
Theorem features_aligned (p : pipeline Q) X P M : align_on p <> ""%string -> features_of p X = Ok (P, M) ->
  exists P0 M0 lead, transform p X = Ok (P0, M0) /\ lookup P0 (align_on p) = Ok lead /\ In (align_on p, lead) P0 /\
    (increasingZ (index lead) -> after_1700 (index lead) -> fine P0 -> fine M0 -> Forall2 (aligned_entry p lead) P0 P /\ Forall2 (aligned_entry p lead) M0 M).
Proof.
  intros Ha. unfold features_of. destruct (transform p X) as [[P0 M0]|] eqn:E; [|discriminate]. cbn [bind]. intros H. exists P0, M0.
  assert (HL : exists lead, lookup P0 (align_on p) = Ok lead).
  { unfold align in H. apply String.eqb_neq in Ha. rewrite Ha in H. cbn [fst] in H. destruct (lookup P0 (align_on p)) as [lead|]; [eauto|discriminate]. }
  destruct HL as (lead & HL). exists lead. split; [reflexivity|]. split; [exact HL|]. split; [now apply lookup_In|]. intros H1 H2 H3 H4. exact (align_entries p P0 M0 P M lead Ha HL H1 H2 H3 H4 H).
Qed.
