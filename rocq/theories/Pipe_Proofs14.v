(** A strategy whose parts fit together produces signals; otherwise the error is definite. *)
From Coq Require Import String.
From Verif Require Import Prelude PreludeFacts Num Series Pipe_Model Pipe_Spec Pipe_Spec3 Pipe_Proofs1 Pipe_Proofs2 Pipe_Proofs3 Pipe_Proofs4 Pipe_Proofs5 Pipe_Proofs10 Pipe_Proofs12.
Open Scope nat_scope.

Section Ready.
  Context {A : Type} {HA : Arith A}.
  Notation cell := (ext A).

  Lemma row_at_length (f : frame A) t : proper f -> length (row_at f t) = length (columns f).
  Proof.
    intros Hp. unfold row_at. destruct (filter _ (rows f)) as [|r l] eqn:E; [apply repeat_length|].
    unfold proper in Hp. rewrite Forall_forall in Hp. apply Hp. assert (In r (r :: l)) as Hr by now left. rewrite <- E in Hr. now apply filter_In in Hr.
  Qed.
  Lemma concat_row_length (l : list (frame A)) t : Forall proper l -> length (concat (map (fun f => row_at f t) l)) = length (concat (map columns l)).
  Proof. induction 1 as [|f l Hf _ IH]; auto. cbn. now rewrite !app_length, IH, row_at_length. Qed.

  Lemma good_NoDups (d : dict (frame A)) : good_frames d -> Forall (fun f => NoDup (index f)) (map snd d).
  Proof. intros H. eapply Forall_impl; [|exact H]. cbn. tauto. Qed.

  Lemma outer_ready (d : dict (frame A)) : good_features d -> exists X, concat_outer (map snd d) = Ok X /\
    is_frame (dropna X) (complete d) (fun t => concat (map (fun f => row_at f t) (map snd d))) /\
    forall t r, In (t, r) (rows (dropna X)) -> length r = width d /\ ~ In NaN r.
  Proof.
    intros (Hne & Hg & Hp). assert (map snd d <> []) as Hne' by (destruct d; [congruence|discriminate]).
    destruct (concat_outer_frame (map snd d) Hne' (good_NoDups d Hg)) as (X & EX & _). exists X. split; [exact EX|].
    pose proof (concat_outer_dropna (map snd d) X Hg EX) as F. split; [exact F|]. intros t r Hr. split.
    - destruct F as (_ & _ & F). rewrite (F t r Hr). now apply concat_row_length.
    - unfold dropna in Hr. cbn [rows] in Hr. apply filter_In in Hr. destruct Hr as [_ Hr]. now apply complete_row_spec in Hr.
  Qed.

  Lemma values_fit (X : frame A) w : (forall t r, In (t, r) (rows X) -> length r = w /\ ~ In NaN r) -> Forall (fun r => length r = w /\ ~ In NaN r) (values X).
  Proof. intros H. apply Forall_forall. intros r Hr. unfold values in Hr. apply in_map_iff in Hr. destruct Hr as ([t r'] & <- & Hr). exact (H t r' Hr). Qed.
  Lemma values_length (X : frame A) : length (values X) = length (index X).
  Proof. unfold values, index. now rewrite !map_length. Qed.
  Lemma values_nonempty (X : frame A) t : In t (index X) -> values X <> [].
  Proof. intros H E. apply (f_equal (@length _)) in E. rewrite values_length in E. destruct (index X); [destruct H|discriminate]. Qed.

  Lemma make_series_fits {V} (ts : list Z) (v : list V) : length v = length ts -> make_series ts v = Ok (combine ts v).
  Proof. intros H. unfold make_series. now rewrite H, Nat.eqb_refl. Qed.

  Lemma primary_ready_ok (p : pipeline A) P M : primary_ready p P -> exists Xp m v q, primary_features (P, M) = Ok Xp /\ NoDup (index Xp) /\ (forall t, In t (index Xp) <-> complete P t) /\
    primary_model p = Some m /\ n_classes m = length (classes m) /\
    predict m (values Xp) = Ok v /\ length v = length (index Xp) /\ ~ In NaN v /\
    predict_proba m (values Xp) = Ok q /\ length q = length (index Xp) /\ Forall (fun r => length r = length (classes m) /\ ~ In NaN r) q.
  Proof.
    intros (HP & (t & Ht) & m & Em & Hn & Ha). destruct (outer_ready P HP) as (X & EX & (F1 & F2 & F3) & W).
    assert (In t (index (dropna X))) as Hi by now apply F2.
    destruct (Ha (values (dropna X)) (values_nonempty _ t Hi) (values_fit _ _ W)) as ((v & Ev & Lv & Nv) & (q & Eq & Lq & Nq)).
    rewrite values_length in Lv, Lq. exists (dropna X), m, v, q. unfold primary_features. cbn [fst]. rewrite EX. auto 20.
  Qed.

  (** The features of the metalabeling model fit. *)
  Lemma meta_fits (p : pipeline A) Xp P M Xm m : good_features M -> NoDup (index Xp) -> primary_model p = Some m -> features_for_metalabeling p Xp (P, M) = Ok Xm ->
    forall t r, In (t, r) (rows Xm) -> length r = width M + length (prediction_columns p) /\ ~ In NaN r.
  Proof.
    intros HM HN Em E t r Hr. destruct HM as (Hne & Hg & Hp). split; [|exact (proj1 (proj2 (proj2 (proj2 (proj2 (features_meta_ok p Xp P M Xm Hg HN E))))) t r Hr)].
    destruct (outer_ready M (conj Hne (conj Hg Hp))) as (X & EX & (F1 & F2 & F3) & W).
    unfold features_for_metalabeling in E. cbn [snd] in E. rewrite EX, Em in E. cbn [bind need] in E. set (B := dropna X) in *. unfold prediction_columns. rewrite Em, app_length.
    match type of E with bind ?c _ = _ => destruct c as [X1|] eqn:E1; [|discriminate] end. cbn [bind] in E.
    match type of E with bind ?c _ = _ => destruct c as [X2|] eqn:E2; [|discriminate] end. cbn [bind] in E.
    destruct (raise_if _ _) in E; [|discriminate]. cbn [bind] in E. injection E as ->.
    assert (H1 : NoDup (index X1) /\ forall t r, In (t, r) (rows X1) -> length r = width M + length (if use_predictions p then ["primary_side_pred"%string] else [])).
    { destruct (use_predictions p); [|injection E1 as <-; split; [exact F1|]; intros u x Hx; rewrite Nat.add_0_r; now apply W in Hx].
      destruct (predict m (values Xp)) as [v|]; [|discriminate]. cbn [bind] in E1. destruct (make_series (index Xp) v) as [s|] eqn:Es; [|discriminate]. cbn [bind] in E1. apply make_series_Ok in Es. destruct Es as (_ & _ & Es).
      destruct (add_column_frame B "primary_side_pred" s F1) as (g & Eg & _ & Ig & (Ng & _ & Rg)); [now rewrite Es|]. rewrite E1 in Eg. injection Eg as <-. split; [exact Ng|].
      intros u x Hx. rewrite (Rg u x Hx), app_length. cbn [length]. f_equal. assert (In u (index B)) as Hu by (rewrite <- Ig; now apply (in_map fst) in Hx). now apply (W u), In_row_at. }
    destruct H1 as (N1 & L1). destruct (use_proba p).
    - destruct (predict_proba m (values Xp)) as [q|]; [|discriminate]. cbn [bind] in E2. unfold make_frame in E2.
      destruct (Nat.eqb_spec (length (index Xp)) (length q)) as [Lq|]; [|discriminate]. destruct (forallb _ q) eqn:Eq; [|discriminate]. cbn [andb bind] in E2.
      set (g := {| columns := proba_columns (n_classes m); rows := combine (index Xp) q |}) in *. assert (Ig : index g = index Xp) by now apply map_fst_combine.
      destruct (concat_inner_frame X1 g N1) as (X3 & E3 & _ & (_ & T3 & R3)); [now rewrite Ig|]. rewrite E2 in E3. injection E3 as <-.
      assert (Ht : In t (index Xm)) by (now apply (in_map fst) in Hr). apply T3 in Ht. destruct Ht as [Ht1 Ht2].
      rewrite (R3 t r Hr), app_length, (L1 t _ (In_row_at X1 t N1 Ht1)), <- Nat.add_assoc. do 2 f_equal.
      assert (Hg2 : In (t, row_at g t) (rows g)) by (apply In_row_at; [now rewrite Ig|exact Ht2]). cbn [g rows] in Hg2. apply in_combine_r in Hg2.
      rewrite forallb_forall in Eq. specialize (Eq _ Hg2). apply Nat.eqb_eq in Eq. rewrite map_length, seq_length. unfold proba_columns in Eq. rewrite map_length, seq_length in Eq. exact Eq.
    - injection E2 as <-. cbn [length]. rewrite Nat.add_0_r. exact (L1 t r Hr).
  Qed.

  Lemma meta_ready_ok (p : pipeline A) P M mm Xp m v q : metalabeling_model p = Some mm -> meta_ready p P M -> ~ prediction_missing p P M ->
    (forall t, complete M t -> complete P t \/ ~ complete P t) ->
    NoDup (index Xp) -> (forall t, In t (index Xp) <-> complete P t) ->
    primary_model p = Some m -> n_classes m = length (classes m) ->
    predict m (values Xp) = Ok v -> length v = length (index Xp) -> ~ In NaN v ->
    predict_proba m (values Xp) = Ok q -> length q = length (index Xp) -> Forall (fun r => length r = length (classes m) /\ ~ In NaN r) q ->
    exists Xm w r, features_for_metalabeling p Xp (P, M) = Ok Xm /\ NoDup (index Xm) /\ predict mm (values Xm) = Ok w /\ length w = length (index Xm) /\
      predict_proba mm (values Xm) = Ok r /\ length r = length (index Xm) /\ Forall (fun x => length x = length (classes mm) /\ ~ In NaN x) r.
  Proof.
    intros Emm HR HM Dec Np Tp Em Hn Ev Lv Nv Eq Lq Nq. unfold meta_ready in HR. rewrite Emm in HR. destruct HR as (_ & HM' & (t & Ht1 & Ht2) & (_ & Ha)).
    pose proof HM' as (Hne & Hg & Hp).
    assert (EX : is_ok (features_for_metalabeling p Xp (P, M)) = true).
    { unfold index in Lv, Lq. rewrite map_length in Lv, Lq. apply (features_meta_accepts p Xp P M m v q Hg Hne Np Em).
      - intros Hu. split; [exact Ev|]. split; [exact Lv|]. split; [exact Nv|]. intros Hv u Hu'. destruct (Dec u Hu') as [D|D]; [now apply Tp|]. exfalso. apply HM.
        split; [rewrite Emm; discriminate|]. split; [exact Hu|]. split; [exact Hv|]. now exists u.
      - intros _. split; [exact Eq|]. split; [exact Lq|]. now rewrite Hn. }
    destruct (features_for_metalabeling p Xp (P, M)) as [Xm|] eqn:E; [|discriminate].
    destruct (features_meta_ok p Xp P M Xm Hg Np E) as (G1 & _ & G3 & _).
    assert (Hi : In t (index Xm)) by (apply G3; [exact Ht2|now apply Tp]).
    destruct (Ha (values Xm) (values_nonempty _ t Hi) (values_fit _ _ (meta_fits p Xp P M Xm m HM' Np Em E))) as ((w & Ew & Lw & _) & (r & Er & Lr & Nr)).
    rewrite values_length in Lw, Lr. exists Xm, w, r. auto 10.
  Qed.

  Lemma complete_at_dec (f : frame A) t : complete_at t f \/ ~ complete_at t f.
  Proof.
    destruct (existsb (fun r => (fst r =? t)%Z && forallb (fun x => negb (is_nan x)) (snd r)) (rows f)) eqn:E.
    - left. apply existsb_exists in E. destruct E as ([u r] & Hr & E). apply andb_true_iff in E. destruct E as [E1 E2]. cbn in *. apply Z.eqb_eq in E1. subst u. exists r. split; [exact Hr|].
      apply (complete_row_spec (t, r)). exact E2.
    - right. intros (r & Hr & Hn). assert (existsb (fun r => (fst r =? t)%Z && forallb (fun x => negb (is_nan x)) (snd r)) (rows f) = true); [|congruence].
      apply existsb_exists. exists (t, r). split; [exact Hr|]. cbn. rewrite Z.eqb_refl. cbn. apply (complete_row_spec (t, r)). exact Hn.
  Qed.
  Lemma complete_dec (d : dict (frame A)) t : complete d t \/ ~ complete d t.
  Proof.
    unfold complete. induction (map snd d) as [|f l IH]; [left; constructor|]. destruct (complete_at_dec f t), IH; [left; now constructor|right|right|right]; intros H1; inversion H1; tauto.
  Qed.

  Lemma timely_ok (p : pipeline A) X : timely p X -> exists lead u, lookup X (align_on p) = Ok lead /\
    mapM (fun kf : string * frame A => match index lead, rev (index (snd kf)) with t :: _, last :: _ => raise_if (last <? t)%Z ValueError | _, _ => Err IndexError end) X = Ok u.
  Proof.
    intros (lead & t0 & rest & El & Ei & H). exists lead. rewrite Ei. clear Ei.
    assert (is_ok (mapM (fun kf : string * frame A => match t0 :: rest, rev (index (snd kf)) with t :: _, last :: _ => raise_if (last <? t)%Z ValueError | _, _ => Err IndexError end) X) = true) as E.
    { apply mapM_ok_iff. intros [k f] Hin. destruct (H k f Hin) as (l & z & E & Hz). cbn [snd]. rewrite E, rev_app_distr. cbn. apply Z.ltb_ge in Hz. now rewrite Hz. }
    destruct (mapM _ X) as [u|]; [|discriminate]. exists u. auto.
  Qed.

  Lemma meta_fitted (p : pipeline A) P M : meta_ready p P M -> match metalabeling_model p with Some m => raise_if (negb (fitted m)) NotFittedError | None => Ok tt end = Ok tt.
  Proof. unfold meta_ready. destruct (metalabeling_model p) as [mm|]; [|reflexivity]. intros (-> & _). reflexivity. Qed.

  Theorem predictions_accept (p : pipeline A) X P M : timely p X -> features_of p X = Ok (P, M) -> primary_ready p P -> meta_ready p P M -> ~ prediction_missing p P M ->
    is_ok (predict_all p X) = true /\ is_ok (predict_proba_all p X) = true.
  Proof.
    intros HT Hf HP HM Hmiss. destruct (primary_ready_ok p P M HP) as (Xp & m & v & q & EXp & Np & Tp & Em & Hn & Ev & Lv & Nv & Eq & Lq & Nq).
    destruct (timely_ok p X HT) as (lead & u & El & Eu).
    assert (Hprob : forall mm Xs r, predict_proba mm (values Xs) = Ok r -> length r = length (index Xs) -> Forall (fun x : list cell => length x = length (classes mm) /\ ~ In NaN x) r -> make_proba mm Xs = Ok (combine (index Xs) r)).
    { intros mm Xs r E L F. unfold make_proba. rewrite E. cbn [bind]. replace (forallb _ r) with true; [now apply make_series_fits|]. symmetry. apply forallb_forall. intros x Hx. rewrite Forall_forall in F. apply Nat.eqb_eq. now apply F. }
    unfold predict_all, predict_proba_all. rewrite (meta_fitted p P M HM), El. cbn [bind]. rewrite Eu. cbn [bind]. rewrite Hf. cbn [bind]. rewrite EXp, Em. cbn [bind need]. rewrite Ev. cbn [bind].
    rewrite (make_series_fits _ _ Lv), (Hprob m Xp q Eq Lq Nq). cbn [bind].
    destruct (metalabeling_model p) as [mm|] eqn:Emm; [|auto].
    destruct (meta_ready_ok p P M mm Xp m v q Emm HM Hmiss (fun t _ => complete_dec P t) Np Tp Em Hn Ev Lv Nv Eq Lq Nq) as (Xm & w & r & EXm & _ & Ew & Lw & Er & Lr & Nr).
    rewrite EXm. cbn [bind]. rewrite Ew. cbn [bind]. rewrite (make_series_fits _ _ Lw), (Hprob mm Xm r Er Lr Nr). cbn [bind].
    pose proof HM as HM'. unfold meta_ready in HM'. rewrite Emm in HM'. destruct HM' as (-> & _). auto.
  Qed.
End Ready.
