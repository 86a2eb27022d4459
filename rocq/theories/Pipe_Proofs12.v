(** The columns of the data set of the metalabeling model, and when it can be made. *)
From Coq Require Import String.
From Verif Require Import Prelude PreludeFacts Num Series Pipe_Model Pipe_Spec Pipe_Proofs1 Pipe_Proofs2 Pipe_Proofs3 Pipe_Proofs4.
Open Scope nat_scope.

Section Columns.
  Context {A : Type} {HA : Arith A}.
  Notation cell := (ext A).

  Lemma add_column_columns (f : frame A) name s g : add_column f name s = Ok g -> columns g = columns f ++ [name].
  Proof. unfold add_column. destruct (aligned_values _ _); [|discriminate]. cbn [bind]. intros [= <-]. reflexivity. Qed.
  Lemma concat_inner_columns (a b g : frame A) : concat_inner a b = Ok g -> columns g = columns a ++ columns b.
  Proof. unfold concat_inner. repeat match goal with |- context [if ?c then _ else _] => destruct c end; intros H; try discriminate; injection H as <-; reflexivity. Qed.
  Lemma concat2_columns (a b g : frame A) : concat2 a b = Ok g -> columns g = columns a ++ columns b.
  Proof. unfold concat2. repeat match goal with |- context [if ?c then _ else _] => destruct c end; intros H; try discriminate; injection H as <-; reflexivity. Qed.
  Lemma concat_outer_columns (l : list (frame A)) g : concat_outer l = Ok g -> columns g = concat (map columns l).
  Proof.
    destruct l as [|f l]; [discriminate|]. cbn [concat_outer map concat].
    assert (G : forall l f, foldM concat2 f l = Ok g -> columns g = columns f ++ concat (map columns l)).
    { clear. induction l as [|h l IH]; intros f H; [injection H as ->; now rewrite app_nil_r|]. cbn [foldM] in H. destruct (concat2 f h) as [k|] eqn:E; [|discriminate]. cbn [bind] in H.
      rewrite (IH _ H), (concat2_columns _ _ _ E). cbn. now rewrite <- app_assoc. }
    apply G.
  Qed.

  Lemma features_meta_columns (p : pipeline A) Xp P M Xm : features_for_metalabeling p Xp (P, M) = Ok Xm ->
    columns Xm = concat (map columns (map snd M)) ++ prediction_columns p.
  Proof.
    unfold features_for_metalabeling, prediction_columns. cbn [snd]. intros H. destruct (concat_outer (map snd M)) as [X|] eqn:EX; [|discriminate]. cbn [bind] in H.
    apply concat_outer_columns in EX. rewrite <- EX. change (columns X) with (columns (dropna X)). set (B := dropna X) in *. clearbody B. clear X EX.
    match type of H with bind ?c _ = _ => destruct c as [X1|] eqn:E1; [|discriminate] end. cbn [bind] in H.
    match type of H with bind ?c _ = _ => destruct c as [X2|] eqn:E2; [|discriminate] end. cbn [bind] in H.
    destruct (raise_if _ _); [|discriminate]. cbn [bind] in H. injection H as <-.
    assert (C1 : columns X1 = columns B ++ (if use_predictions p then ["primary_side_pred"%string] else [])).
    { destruct (use_predictions p); [|injection E1 as <-; now rewrite app_nil_r].
      destruct (need (primary_model p)) as [m|]; [|discriminate]. cbn [bind] in E1. destruct (predict m _) as [v|]; [|discriminate]. cbn [bind] in E1.
      destruct (make_series _ v) as [s|]; [|discriminate]. cbn [bind] in E1. now apply add_column_columns in E1. }
    rewrite app_assoc, <- C1. destruct (use_proba p); [|injection E2 as <-; now rewrite app_nil_r].
    destruct (primary_model p) as [m|]; cbn [need bind] in E2; [|discriminate]. destruct (predict_proba m _) as [v|]; [|discriminate]. cbn [bind] in E2.
    unfold make_frame in E2. destruct (_ && _)%bool; [|discriminate]. cbn [bind] in E2. apply concat_inner_columns in E2. rewrite E2. reflexivity.
  Qed.

  Theorem dataset_meta_columns (p : pipeline A) X y P M X' y' : features_of p X = Ok (P, M) -> create_dataset_metalabeling p X y = Ok (X', y') ->
    columns X' = concat (map columns (map snd M)) ++ prediction_columns p.
  Proof.
    intros Hf H. unfold create_dataset_metalabeling in H. destruct (raise_if (negb (labels_ok y)) _); [|discriminate]. cbn [bind] in H. rewrite Hf in H. cbn [bind fst] in H.
    destruct (align_X_dict_and_y P y true) as [[Xp yp]|]; [|discriminate]. cbn [bind fst snd] in H.
    destruct (features_for_metalabeling p Xp (P, M)) as [Xm|] eqn:Em; [|discriminate]. cbn [bind] in H. apply features_meta_columns in Em.
    destruct (need _) as [m|]; [|discriminate]. cbn [bind] in H. destruct (predict m _) as [v|]; [|discriminate]. cbn [bind] in H. destruct (raise_if _ _); [|discriminate]. cbn [bind] in H.
    match type of H with bind (loc_f Xm ?ts) _ = _ => destruct (loc_f Xm ts) as [X1|] eqn:E1; [|discriminate] end. cbn [bind] in H.
    unfold loc_f in E1. destruct (loc (rows Xm) _) as [r1|]; [|discriminate]. injection E1 as <-. destruct (loc _ _) in H; [|discriminate]. injection H as <- <-. exact Em.
  Qed.

  (** When the features for the metalabeling model can be made. *)
  Lemma features_meta_accepts (p : pipeline A) Xp P M m v w : good_frames M -> M <> [] -> NoDup (index Xp) -> primary_model p = Some m ->
    (use_predictions p = true -> predict m (map snd (rows Xp)) = Ok v /\ length v = length (rows Xp) /\ ~ In NaN v /\
       (use_proba p = false -> forall t, Forall (complete_at t) (map snd M) -> In t (index Xp))) ->
    (use_proba p = true -> predict_proba m (map snd (rows Xp)) = Ok w /\ length w = length (rows Xp) /\ Forall (fun r => length r = n_classes m /\ ~ In NaN r) w) ->
    is_ok (features_for_metalabeling p Xp (P, M)) = true.
  Proof.
    intros Hg Hne Np Em H1 H2. unfold features_for_metalabeling. cbn [snd]. rewrite Em. cbn [need bind].
    assert (Hne' : map snd M <> []) by (destruct M; [congruence|discriminate]).
    assert (HN : Forall (fun f : frame A => NoDup (index f)) (map snd M)) by (eapply Forall_impl; [|exact Hg]; cbn; tauto).
    destruct (concat_outer_frame (map snd M) Hne' HN) as (X & EX & _). rewrite EX. cbn [bind].
    pose proof (concat_outer_dropna (map snd M) X Hg EX) as (N0 & T0 & R0). set (B := dropna X) in *.
    assert (C0 : forall t r, In (t, r) (rows B) -> ~ In NaN r).
    { intros t r Hr. unfold B, dropna in Hr. cbn [rows] in Hr. apply filter_In in Hr. destruct Hr as [_ Hr]. now apply complete_row_spec in Hr. }
    clearbody B. clear X EX.
    assert (Lp : length (index Xp) = length (rows Xp)) by (unfold index; apply map_length).
    (* predictions *)
    assert (F1 : exists X1, (if use_predictions p then do v <- predict m (values Xp) ;; do s <- make_series (index Xp) v ;; add_column B "primary_side_pred" s else Ok B) = Ok X1 /\
      NoDup (index X1) /\ (forall t, In t (index X1) <-> Forall (complete_at t) (map snd M)) /\
      forall t r, In (t, r) (rows X1) -> In t (index Xp) \/ use_proba p = false -> ~ In NaN r).
    { destruct (use_predictions p).
      - destruct (H1 eq_refl) as (E1 & L1 & V1 & S1). unfold values. rewrite E1. cbn [bind].
        assert (Es : make_series (index Xp) v = Ok (combine (index Xp) v)) by (unfold make_series; now rewrite Lp, L1, Nat.eqb_refl). rewrite Es. cbn [bind].
        assert (Ls : map fst (combine (index Xp) v) = index Xp) by (apply map_fst_combine; now rewrite Lp, L1).
        destruct (add_column_frame B "primary_side_pred" (combine (index Xp) v)) as (g & Eg & _ & Ig & (Ng & Tg & Rg)); [exact N0|now rewrite Ls|].
        exists g. split; [exact Eg|]. split; [exact Ng|]. split; [intros t; now rewrite Ig, T0|].
        intros t r Hr Ht. rewrite (Rg t r Hr). assert (Hb : In t (index B)) by (apply Tg; now apply (in_map fst) in Hr).
        assert (Htp : In t (index Xp)) by (destruct Ht as [Ht|Ht]; [exact Ht|]; apply (S1 Ht), T0, Hb).
        rewrite in_app_iff. intros [Hn|[Hn|[]]]; [exact (C0 t _ (In_row_at B t N0 Hb) Hn)|].
        rewrite <- Ls in Htp. apply In_key in Htp. destruct Htp as (x & Hx). rewrite (series_at_In _ t x) in Hn by (try rewrite Ls; assumption). subst x.
        apply V1. now apply in_combine_r in Hx.
      - exists B. split; [reflexivity|]. split; [exact N0|]. split; [exact T0|]. intros t r Hr _. now apply (C0 t). }
    destruct F1 as (X1 & E1 & N1 & T1 & C1). cbn [need bind] in *. rewrite E1. cbn [bind]. clear E1.
    destruct (use_proba p) eqn:Eu.
    - destruct (H2 eq_refl) as (E2 & L2 & V2). unfold values. rewrite E2. cbn [bind].
      assert (Ef : make_frame (index Xp) (proba_columns (n_classes m)) w = Ok {| columns := proba_columns (n_classes m); rows := combine (index Xp) w |}).
      { unfold make_frame. rewrite Lp, L2, Nat.eqb_refl. replace (forallb _ w) with true; [reflexivity|]. symmetry. apply forallb_forall. intros r Hr. rewrite Forall_forall in V2.
        apply Nat.eqb_eq. unfold proba_columns. rewrite map_length, seq_length. now apply V2. }
      rewrite Ef. cbn [bind]. set (g := {| columns := proba_columns (n_classes m); rows := combine (index Xp) w |}).
      assert (Ig : index g = index Xp) by (apply map_fst_combine; now rewrite Lp, L2).
      destruct (concat_inner_frame X1 g N1) as (X2 & E3 & _ & (N2 & T2 & R2)); [now rewrite Ig|]. rewrite E3. cbn [bind].
      replace (forallb _ (rows X2)) with true; [reflexivity|]. symmetry. apply forallb_forall. intros [t r] Hr. apply complete_row_spec. cbn [snd].
      rewrite (R2 t r Hr). assert (Ht : In t (index X2)) by (now apply (in_map fst) in Hr). apply T2 in Ht. destruct Ht as [Ht1 Ht2].
      rewrite in_app_iff. intros [Hn|Hn].
      + refine (C1 t _ (In_row_at X1 t N1 Ht1) _ Hn). left. now rewrite <- Ig.
      + apply In_key in Ht2. destruct Ht2 as (q & Hq). rewrite (row_at_In g t q) in Hn; [|now rewrite Ig|exact Hq]. apply in_combine_r in Hq. rewrite Forall_forall in V2. now apply (V2 q).
    - cbn [bind]. replace (forallb _ (rows X1)) with true; [reflexivity|]. symmetry. apply forallb_forall. intros [t r] Hr. apply complete_row_spec. cbn [snd]. apply (C1 t r Hr). now right.
  Qed.

  Theorem dataset_meta_accepts (p : pipeline A) X y P M m Xp yp v w : features_of p X = Ok (P, M) -> good_frames P -> good_frames M -> M <> [] -> NoDup (map fst y) ->
    create_dataset_primary p X y true = Ok (Xp, yp) -> primary_model p = Some m ->
    predict m (map snd (rows Xp)) = Ok v -> length v = length (rows Xp) ->
    (use_predictions p = true -> ~ In NaN v) ->
    (use_predictions p = true -> use_proba p = false -> forall t, Forall (complete_at t) (map snd M) -> In t (index Xp)) ->
    (use_proba p = true -> predict_proba m (map snd (rows Xp)) = Ok w /\ length w = length (rows Xp) /\ Forall (fun r => length r = n_classes m /\ ~ In NaN r) w) ->
    is_ok (create_dataset_metalabeling p X y) = true.
  Proof.
    intros Hf HP HM Hne Hy Hd Em Ev Lv Vv Ht Hw. unfold create_dataset_primary in Hd. unfold create_dataset_metalabeling. destruct (raise_if _ _); [|discriminate]. cbn [bind] in *. rewrite Hf in *. cbn [bind fst] in *.
    rewrite Hd. cbn [bind fst snd].
    destruct (align_X_y_content P y Xp yp HP Hy Hd) as (_ & Np & Tp & _ & _). destruct (align_X_y_ok P y Xp yp Hd) as (Ip & _ & _ & _ & Sp).
    assert (Ok1 : is_ok (features_for_metalabeling p Xp (P, M)) = true).
    { apply (features_meta_accepts p Xp P M m v w HM Hne Np Em); [|exact Hw]. intros Hu. split; [exact Ev|]. split; [exact Lv|]. split; [now apply Vv|]. intros Hq. exact (Ht Hu Hq). }
    destruct (features_for_metalabeling p Xp (P, M)) as [Xm|] eqn:Exm; [|discriminate]. cbn [bind]. rewrite Em. cbn [need bind]. unfold values. rewrite Ev. cbn [bind].
    assert (Ly : length v = length yp). { rewrite Lv. transitivity (length (index Xp)); [unfold index; now rewrite map_length|]. rewrite Ip. apply map_length. }
    rewrite Ly, Nat.eqb_refl. cbn [negb raise_if bind]. set (ym := map _ (combine yp v)). set (ts := intersection _ _).
    unfold loc_f. assert (E1 : is_ok (loc (rows Xm) ts) = true) by (apply loc_ok; intros t H; apply intersection_In in H; tauto).
    assert (E2 : is_ok (loc ym ts) = true) by (apply loc_ok; intros t H; apply intersection_In in H; tauto).
    destruct (loc (rows Xm) ts); [|discriminate]. cbn [bind]. destruct (loc ym ts); [|discriminate]. reflexivity.
  Qed.
End Columns.
