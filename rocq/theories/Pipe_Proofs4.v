(** The data sets. *)
From Coq Require Import String.
From Verif Require Import Prelude PreludeFacts Num Pipe_Model Pipe_Spec Pipe_Proofs1 Pipe_Proofs2 Pipe_Proofs3.
Open Scope nat_scope.

Section Data.
  Context {A : Type} {HA : Arith A}.
  Notation cell := (ext A).

  Lemma raise_if_Ok b e u : raise_if b e = Ok u -> b = false. Proof. now destruct b. Qed.

  Lemma check_X_y_spec (X : frame A) y u : check_X_y X y = Ok u ->
    rows X <> [] /\ columns X <> [] /\ length (rows X) = length y /\ (forall t row x, In (t, row) (rows X) -> In x row -> exists v, x = Fin v) /\
    forall t x, In (t, x) y -> exists v, x = Fin v.
  Proof.
    unfold check_X_y. intros H. apply raise_if_Ok in H. rewrite !orb_false_iff, !negb_false_iff in H. destruct H as ((((H1 & H2) & H3) & H4) & H5).
    apply Nat.eqb_neq in H1, H2. apply Nat.eqb_eq in H3. rewrite forallb_forall in H4, H5.
    split; [intros E; rewrite E in H1; now apply H1|]. split; [intros E; rewrite E in H2; now apply H2|]. split; [exact H3|]. split.
    - intros t row x Hr Hx. specialize (H4 (t, row) Hr). rewrite forallb_forall in H4. specialize (H4 x Hx). destruct x as [v| | |]; try discriminate. now exists v.
    - intros t x Hx. specialize (H5 (t, x) Hx). cbn in H5. destruct x as [v| | |]; try discriminate. now exists v.
  Qed.

  Theorem align_X_y_ok (P : dict (frame A)) y X' y' : align_X_dict_and_y P y true = Ok (X', y') ->
    index X' = map fst y' /\ rows X' <> [] /\ columns X' <> [] /\ (forall t row x, In (t, row) (rows X') -> In x row -> exists v, x = Fin v) /\
    (forall t x, In (t, x) y' -> In (t, x) y /\ exists v, x = Fin v).
  Proof.
    unfold align_X_dict_and_y. intros H. destruct (mapM _ (map snd P)) as [parts|]; [|discriminate]. cbn [bind] in H.
    destruct (concat_outer parts) as [X|]; [|discriminate]. cbn [bind] in H. destruct (loc y (index (dropna X))) as [ya|] eqn:El; [|discriminate]. cbn [bind] in H.
    destruct (check_X_y (dropna X) ya) eqn:Ec; [|discriminate]. injection H as <- <-.
    apply check_X_y_spec in Ec. destruct Ec as (H1 & H2 & H3 & H4 & H5). apply loc_ge in El. destruct El as (_ & L2 & L3).
    split; [symmetry; apply L2; rewrite <- H3; unfold index; now rewrite map_length|]. split; [exact H1|]. split; [exact H2|]. split; [exact H4|].
    intros t x Hx. split; [now apply L3|]. exact (H5 t x Hx).
  Qed.

  Lemma concat_map_NaN (l : list (frame A)) t : In NaN (concat (map (fun f => row_at f t) l)) <-> exists f, In f l /\ In NaN (row_at f t).
  Proof.
    rewrite in_concat. split.
    - intros (r & Hr & Hn). apply in_map_iff in Hr. destruct Hr as (f & <- & Hf). now exists f.
    - intros (f & Hf & Hn). exists (row_at f t). split; [|exact Hn]. now apply in_map with (f := fun f => row_at f t).
  Qed.
  Lemma complete_at_row_at (f : frame A) t : NoDup (index f) -> columns f <> [] -> (complete_at t f <-> ~ In NaN (row_at f t)).
  Proof.
    intros Hn Hc. split.
    - intros (row & Hr & Hx). now rewrite (row_at_In f t row Hn Hr).
    - intros H. destruct (in_dec Z.eq_dec t (index f)) as [Hi|Hi].
      + exists (row_at f t). split; [now apply In_row_at|exact H].
      + exfalso. apply H. rewrite (row_at_none f t Hi). destruct (columns f); [congruence|]. cbn. now left.
  Qed.
  Lemma made_of_row_at (l : list (frame A)) t : Forall (fun f => NoDup (index f) /\ columns f <> []) l -> Forall (complete_at t) l ->
    made_of l t (concat (map (fun f => row_at f t) l)).
  Proof.
    intros Hg Hc. exists (map (fun f => row_at f t) l). split; [reflexivity|]. induction l as [|f l IH]; [constructor|].
    inversion Hg as [|? ? G1 G2]; subst. inversion Hc as [|? ? C1 C2]; subst. constructor; [|now apply IH].
    destruct C1 as (row & Hr & _). rewrite (row_at_In f t row (proj1 G1) Hr). exact Hr.
  Qed.

  Theorem align_X_y_content (P : dict (frame A)) y X' y' : good_frames P -> NoDup (map fst y) ->
    align_X_dict_and_y P y true = Ok (X', y') ->
    columns X' = concat (map columns (map snd P)) /\ NoDup (index X') /\
    (forall t, In t (index X') <-> usable (map snd P) y t) /\
    (exists keep, index X' = filter keep (map fst y)) /\
    (forall t row, In (t, row) (rows X') -> made_of (map snd P) t row /\ row = concat (map (fun f => row_at f t) (map snd P))).
  Proof.
    unfold good_frames. set (l := map snd P). intros Hg Hy H. unfold align_X_dict_and_y in H. fold l in H.
    destruct (mapM _ l) as [parts|] eqn:Em; [|discriminate]. cbn [bind] in H.
    set (ts := map fst (dropna_s y)) in *. assert (Hts : NoDup ts) by (now apply NoDup_filter_key).
    apply mapM_Ok in Em.
    assert (Hp : Forall2 (fun f g : frame A => columns g = columns f /\ index g = ts /\ (forall t, In t ts -> In t (index f)) /\ forall e, In e (rows g) -> In e (rows f)) l parts).
    { clear H. revert Hg. induction Em as [|f g l' parts' Hf Hl IH]; intros Hg; [constructor|]. inversion Hg as [|? ? G1 G2]; subst. constructor; [|now apply IH].
      unfold loc_f in Hf. destruct (loc (rows f) ts) as [r|] eqn:El; [|discriminate]. injection Hf as <-. cbn [columns rows]. split; [reflexivity|].
      split; [exact (loc_NoDup _ _ _ (proj1 G1) El)|]. split; [apply loc_ok; now rewrite El|]. now apply loc_ge in El. }
    destruct (concat_outer parts) as [X|] eqn:Eo; [|discriminate]. cbn [bind] in H.
    destruct (loc y (index (dropna X))) as [ya|] eqn:El; [|discriminate]. cbn [bind] in H.
    destruct (check_X_y (dropna X) ya) eqn:Ec; [|discriminate]. injection H as <- <-.
    assert (Hne : parts <> []) by (intros ->; discriminate).
    assert (HN : Forall (fun f : frame A => NoDup (index f)) parts).
    { clear -Hp Hts. induction Hp as [|f g ? ? (_ & E & _)]; constructor; [now rewrite E|assumption]. }
    destruct (concat_outer_frame parts Hne HN) as (X0 & E0 & C0 & I0 & F0). rewrite Eo in E0. injection E0 as <-.
    assert (HI : index X = ts) by (apply I0; clear -Hp; induction Hp as [|f g ? ? (_ & E & _)]; constructor; assumption).
    assert (HR : forall t, In t ts -> concat (map (fun f => row_at f t) parts) = concat (map (fun f => row_at f t) l)).
    { intros t Ht. clear -Hp Hg HN Ht. revert Hg HN. induction Hp as [|f g l' ps (Ec & Ei & Hin & Hsub) Hps IH]; intros Hg HN; [reflexivity|].
      inversion Hg as [|? ? G1 G2]; subst. inversion HN as [|? ? N1 N2]; subst. cbn. rewrite (IH G2 N2). f_equal.
      symmetry. apply row_at_In; [tauto|]. apply Hsub. apply In_row_at; [exact N1|]. rewrite Ei. exact Ht. }
    pose proof (dropna_frame X _ _ F0) as (D1 & D2 & D3).
    assert (Hin : forall t, In t (index (dropna X)) <-> In t ts /\ ~ In NaN (concat (map (fun f => row_at f t) l))).
    { intros t. rewrite D2. pose proof (proj1 (proj2 F0) t) as Ht. rewrite HI in Ht. rewrite <- Ht. split; intros (H1 & H2); (split; [exact H1|]); [rewrite <- HR|rewrite HR]; assumption. }
    assert (Hcomp : forall t, ~ In NaN (concat (map (fun f => row_at f t) l)) <-> Forall (complete_at t) l).
    { intros t. rewrite concat_map_NaN. rewrite Forall_forall in *. split.
      - intros H f Hf. apply complete_at_row_at; [apply Hg, Hf|apply Hg, Hf|]. intros Hn. apply H. now exists f.
      - intros H (f & Hf & Hn). specialize (H f Hf). apply complete_at_row_at in H; [contradiction|apply Hg, Hf|apply Hg, Hf]. }
    assert (HT : forall t, In t ts <-> exists lb, In (t, lb) y /\ lb <> NaN).
    { intros t. unfold ts, dropna_s. rewrite In_key. split.
      - intros (v & Hv). apply filter_In in Hv. exists v. split; [tauto|]. intros ->. now destruct Hv.
      - intros (v & Hv & Hn). exists v. apply filter_In. split; [exact Hv|]. now destruct v. }
    split; [|split; [exact D1|split; [|split]]].
    - cbn [dropna columns]. rewrite C0. clear -Hp. induction Hp as [|f g ? ? (E & _)]; cbn; congruence.
    - intros t. rewrite Hin, Hcomp, HT. reflexivity.
    - exists (fun t => existsb (Z.eqb t) (index (dropna X))).
      assert (Hsub : forall (V : Type) (p : Z * V -> bool) (s : list (Z * V)), NoDup (map fst s) -> map fst (filter p s) = filter (fun t => existsb (Z.eqb t) (map fst (filter p s))) (map fst s)).
      { clear. intros V p s. induction s as [|e s IH]; intros Hn; [reflexivity|]. inversion Hn as [|? ? N1 N2]; subst. cbn [filter map].
        assert (Hnot : existsb (Z.eqb (fst e)) (map fst (filter p s)) = false).
        { apply not_true_is_false. intros Hx. apply existsb_exists in Hx. destruct Hx as (u & Hu & Eu). apply Z.eqb_eq in Eu. subst u. apply N1.
          apply in_map_iff in Hu. destruct Hu as (z & <- & Hz). apply filter_In in Hz. now apply in_map. }
        destruct (p e); cbn [map].
        - cbn [existsb filter]. rewrite Z.eqb_refl. cbn [orb]. f_equal. rewrite (IH N2) at 1. apply filter_ext_In. intros u Hu. cbn [existsb].
          destruct (Z.eqb_spec u (fst e)) as [->|]; [contradiction|reflexivity].
        - rewrite Hnot. now apply IH. }
      assert (E1 : index (dropna X) = filter (fun t => existsb (Z.eqb t) (index (dropna X))) ts) by (rewrite <- HI at 1; apply Hsub; now rewrite <- HI in Hts).
      rewrite E1 at 1. unfold ts at 1, dropna_s. rewrite Hsub by exact Hy. fold (dropna_s y). fold ts.
      generalize (index (dropna X)) (fun t (Ht : In t (index (dropna X))) => proj1 (proj1 (Hin t) Ht)). clear. intros idx Hidx.
      induction (map fst y) as [|t s IH]; [reflexivity|]. cbn [filter]. destruct (existsb (Z.eqb t) ts) eqn:Et; cbn [filter].
      + now rewrite IH.
      + destruct (existsb (Z.eqb t) idx) eqn:Ei; [|exact IH]. exfalso. apply existsb_exists in Ei. destruct Ei as (u & Hu & Eu). apply Z.eqb_eq in Eu. subst u.
        apply Hidx in Hu. assert (existsb (Z.eqb t) ts = true) by (apply existsb_exists; exists t; split; [exact Hu|apply Z.eqb_refl]). congruence.
    - intros t row Hr. assert (Ht : In t (index (dropna X))) by (now apply (in_map fst) in Hr). apply Hin in Ht.
      rewrite (D3 t row Hr), HR by tauto. split; [|reflexivity]. apply made_of_row_at; [exact Hg|]. apply Hcomp. tauto.
  Qed.

  (** * Metalabeling *)
  Lemma make_series_Ok {V} (ts : list Z) (vs : list V) s : make_series ts vs = Ok s -> length ts = length vs /\ s = combine ts vs /\ map fst s = ts.
  Proof.
    unfold make_series. destruct (Nat.eqb_spec (length ts) (length vs)) as [E|]; [|discriminate]. intros [= <-]. split; [exact E|]. split; [reflexivity|]. now apply map_fst_combine.
  Qed.
  Lemma In_combine_nth {V} (ts : list Z) (vs : list V) t x : In (t, x) (combine ts vs) -> exists i, nth_error ts i = Some t /\ nth_error vs i = Some x.
  Proof.
    revert vs. induction ts as [|u ts IH]; intros [|w vs] []; cbn in *.
    - exists 0. cbn. split; congruence.
    - destruct (IH vs H) as (i & H1 & H2). now exists (S i).
  Qed.
  Lemma nth_In_combine {V} (ts : list Z) (vs : list V) t x i : nth_error ts i = Some t -> nth_error vs i = Some x -> In (t, x) (combine ts vs).
  Proof. intros H1 H2. apply (nth_error_In _ i). now apply nth_error_combine. Qed.

  (** The frame without the rows with missing values. *)
  Lemma concat_outer_dropna (M : list (frame A)) X : Forall (fun f => NoDup (index f) /\ columns f <> []) M -> concat_outer M = Ok X ->
    is_frame (dropna X) (fun t => Forall (complete_at t) M) (fun t => concat (map (fun f => row_at f t) M)).
  Proof.
    intros Hg HX. assert (Hne : M <> []) by (intros ->; discriminate).
    assert (HN : Forall (fun f : frame A => NoDup (index f)) M) by (eapply Forall_impl; [|exact Hg]; cbn; tauto).
    destruct (concat_outer_frame M Hne HN) as (X0 & E0 & _ & _ & F0). rewrite HX in E0. injection E0 as <-.
    destruct (dropna_frame X _ _ F0) as (D1 & D2 & D3). split; [exact D1|]. split; [|exact D3].
    intros t. rewrite D2, concat_map_NaN, Forall_forall. rewrite Forall_forall in Hg. split.
    - intros (_ & H) f Hf. apply complete_at_row_at; [apply Hg, Hf|apply Hg, Hf|]. intros Hn. apply H. now exists f.
    - intros H. split.
      + destruct M as [|f M]; [congruence|]. exists f. split; [now left|]. destruct (H f (or_introl eq_refl)) as (r & Hr & _). now apply (in_map fst) in Hr.
      + intros (f & Hf & Hn). specialize (H f Hf). apply complete_at_row_at in H; [contradiction|apply Hg, Hf|apply Hg, Hf].
  Qed.

  Theorem features_meta_ok (p : pipeline A) Xp P M Xm : good_frames M -> NoDup (index Xp) -> features_for_metalabeling p Xp (P, M) = Ok Xm ->
    NoDup (index Xm) /\
    (forall t, In t (index Xm) -> Forall (complete_at t) (map snd M)) /\
    (forall t, Forall (complete_at t) (map snd M) -> In t (index Xp) -> In t (index Xm)) /\
    (use_predictions p = true \/ use_proba p = true -> forall t, In t (index Xm) -> In t (index Xp)) /\
    (forall t row, In (t, row) (rows Xm) -> ~ In NaN row) /\
    (forall t row, In (t, row) (rows Xm) -> In t (index Xp) -> exists base pred prob, made_of (map snd M) t base /\ row = base ++ pred ++ prob /\
       (if use_predictions p then exists q, pred = [q] /\ said predict (primary_model p) Xp t q else pred = []) /\
       (if use_proba p then said predict_proba (primary_model p) Xp t prob else prob = [])).
  Proof.
    intros Hg Hp H. unfold features_for_metalabeling in H. cbn [snd] in H.
    destruct (concat_outer (map snd M)) as [X|] eqn:EX; [|discriminate]. cbn [bind] in H.
    pose proof (concat_outer_dropna (map snd M) X Hg EX) as F0. set (B := dropna X) in *. set (base := fun t => concat (map (fun f : frame A => row_at f t) (map snd M))) in *.
    (* the predictions *)
    match type of H with bind ?c _ = _ => destruct c as [X1|] eqn:E1; [|discriminate] end. cbn [bind] in H.
    assert (F1 : exists pr : Z -> list cell, is_frame X1 (fun t => Forall (complete_at t) (map snd M)) (fun t => base t ++ pr t) /\
       (use_predictions p = true -> forall t, ~ In NaN (pr t) -> In t (index Xp)) /\
       (forall t, In t (index Xp) -> if use_predictions p then exists q, pr t = [q] /\ said predict (primary_model p) Xp t q else pr t = [])).
    { destruct (use_predictions p).
      - destruct (need (primary_model p)) as [m|] eqn:Em; [|discriminate]. cbn [bind] in E1. destruct (predict m (values Xp)) as [v|] eqn:Ev; [|discriminate]. cbn [bind] in E1.
        destruct (make_series (index Xp) v) as [s|] eqn:Es; [|discriminate]. cbn [bind] in E1. apply make_series_Ok in Es. destruct Es as (L & -> & Ls).
        assert (Ns : NoDup (map fst (combine (index Xp) v))) by (now rewrite Ls).
        destruct (add_column_frame B "primary_side_pred" (combine (index Xp) v) (proj1 F0) Ns) as (g & Eg & _ & _ & Fg). rewrite E1 in Eg. injection Eg as <-.
        exists (fun t => [series_at (combine (index Xp) v) t]). destruct F0 as (N0 & T0 & R0), Fg as (Ng & Tg & Rg). split; [|split].
        + split; [exact Ng|]. split; [intros t; now rewrite Tg, T0|]. intros t r Hr. rewrite (Rg t r Hr). f_equal. apply R0. apply In_row_at; [exact N0|]. apply Tg. now apply (in_map fst) in Hr.
        + intros _ t Hn. destruct (in_dec Z.eq_dec t (index Xp)) as [Hi|Hi]; [exact Hi|]. exfalso. apply Hn. left. unfold series_at. rewrite filter_key_none; [reflexivity|]. now rewrite Ls.
        + intros t Ht. exists (series_at (combine (index Xp) v) t). split; [reflexivity|]. rewrite <- Ls in Ht. apply In_key in Ht. destruct Ht as (q & Hq).
          rewrite (series_at_In _ t q Ns Hq). apply In_combine_nth in Hq. destruct Hq as (i & H1 & H2). unfold need in Em. destruct (primary_model p) as [pm|]; [|discriminate]. injection Em as ->.
          exists m, v, i. auto.
      - injection E1 as <-. exists (fun _ => []). split; [|split; [discriminate|reflexivity]]. destruct F0 as (N0 & T0 & R0). split; [exact N0|]. split; [exact T0|].
        intros t r Hr. rewrite app_nil_r. now apply R0. }
    destruct F1 as (pr & F1 & Hpr1 & Hpr2).
    (* the probabilities *)
    match type of H with bind ?c _ = _ => destruct c as [X2|] eqn:E2; [|discriminate] end. cbn [bind] in H.
    assert (F2 : exists pp : Z -> list cell, is_frame X2 (fun t => Forall (complete_at t) (map snd M) /\ (use_proba p = true -> In t (index Xp))) (fun t => base t ++ pr t ++ pp t) /\
       (forall t, In t (index Xp) -> if use_proba p then said predict_proba (primary_model p) Xp t (pp t) else pp t = [])).
    { destruct (use_proba p).
      - destruct (need (primary_model p)) as [m|] eqn:Em; [|discriminate]. cbn [bind] in E2. destruct (predict_proba m (values Xp)) as [v|] eqn:Ev; [|discriminate]. cbn [bind] in E2.
        destruct (make_frame _ _ v) as [g|] eqn:Eg; [|discriminate]. cbn [bind] in E2. unfold make_frame in Eg. destruct (Nat.eqb_spec (length (index Xp)) (length v)) as [L|]; [|discriminate].
        destruct (forallb _ v) in Eg; [|discriminate]. cbn [andb] in Eg. injection Eg as <-.
        set (g := {| columns := proba_columns (n_classes m); rows := combine (index Xp) v |}) in *.
        assert (Ig : index g = index Xp) by (apply map_fst_combine, L). assert (Ng : NoDup (index g)) by (now rewrite Ig).
        destruct (concat_inner_frame X1 g (proj1 F1) Ng) as (X2' & E2' & _ & F2). rewrite E2 in E2'. injection E2' as <-.
        exists (fun t => row_at g t). destruct F1 as (N1 & T1 & R1), F2 as (N2 & T2 & R2). split.
        + split; [exact N2|]. split; [intros t; rewrite T2, T1, Ig; tauto|]. intros t r Hr. rewrite (R2 t r Hr), app_assoc. f_equal. apply R1. apply In_row_at; [exact N1|].
          apply (in_map fst) in Hr. apply T2 in Hr. tauto.
        + intros t Ht. rewrite <- Ig in Ht. apply In_key in Ht. destruct Ht as (q & Hq). rewrite (row_at_In g t q Ng Hq). apply In_combine_nth in Hq. destruct Hq as (i & H1 & H2).
          unfold need in Em. destruct (primary_model p) as [pm|]; [|discriminate]. injection Em as ->. exists m, v, i. auto.
      - injection E2 as <-. exists (fun _ => []). split; [|reflexivity]. destruct F1 as (N1 & T1 & R1). split; [exact N1|]. split; [intros t; rewrite T1; intuition discriminate|].
        intros t r Hr. rewrite app_nil_r. now apply R1. }
    destruct F2 as (pp & (N2 & T2 & R2) & Hpp).
    destruct (raise_if _ _) eqn:Er; [|discriminate]. apply raise_if_Ok in Er. cbn [bind] in H. injection H as <-. rewrite negb_false_iff, forallb_forall in Er.
    assert (HNaN : forall t row, In (t, row) (rows X2) -> ~ In NaN row) by (intros t row Hr; exact (proj1 (complete_row_spec _) (Er _ Hr))).
    split; [exact N2|]. split; [intros t Ht; now apply T2|].
    assert (Hsub : use_predictions p = true \/ use_proba p = true -> forall t, In t (index X2) -> In t (index Xp)).
    { intros Hu t Ht. destruct Hu as [Hu|Hu]; [|apply T2 in Ht; tauto]. apply (Hpr1 Hu). intros Hn. pose proof (In_row_at X2 t N2 Ht) as Hx. apply (HNaN _ _ Hx). rewrite (R2 _ _ Hx).
      rewrite !in_app_iff. tauto. }
    split; [intros t Hc Ht; apply T2; auto|]. split; [exact Hsub|]. split; [exact HNaN|].
    intros t row Hr Ht. exists (base t), (pr t), (pp t). split.
    { apply made_of_row_at; [exact Hg|]. apply (in_map fst) in Hr. now apply T2 in Hr. }
    split; [now apply R2|]. split; [now apply Hpr2|now apply Hpp].
  Qed.

  Lemma intersection_In a b t : In t (intersection a b) <-> In t a /\ In t b.
  Proof.
    unfold intersection. rewrite filter_In, nodup_In, existsb_exists. split.
    - intros (H & u & Hu & E). apply Z.eqb_eq in E. subst. tauto.
    - intros (H & H'). split; [exact H|]. exists t. split; [exact H'|apply Z.eqb_refl].
  Qed.

  Theorem dataset_meta_ok (p : pipeline A) X y P M X' y' : features_of p X = Ok (P, M) -> good_frames P -> good_frames M -> NoDup (map fst y) ->
    create_dataset_metalabeling p X y = Ok (X', y') ->
    index X' = map fst y' /\ NoDup (index X') /\
    (forall t, In t (index X') <-> usable (map snd P) y t /\ Forall (complete_at t) (map snd M)) /\
    exists Xp yp, create_dataset_primary p X y true = Ok (Xp, yp) /\
      (forall t row, In (t, row) (rows X') -> ~ In NaN row /\ exists base pred prob, made_of (map snd M) t base /\ row = base ++ pred ++ prob /\
         (if use_predictions p then exists q, pred = [q] /\ said predict (primary_model p) Xp t q else pred = []) /\
         (if use_proba p then said predict_proba (primary_model p) Xp t prob else prob = [])) /\
      (forall t v, In (t, v) y' -> exists l q, In (t, l) y /\ said predict (primary_model p) Xp t q /\ v = Fin (if eeqb q l then a1 else a0)).
  Proof.
    intros Hf HP HM Hy H. unfold create_dataset_metalabeling in H.
    destruct (raise_if (negb (labels_ok y)) AssertionError) eqn:Er; [|discriminate]. cbn [bind] in H. rewrite Hf in H. cbn [bind fst] in H.
    destruct (align_X_dict_and_y P y true) as [[Xp yp]|] eqn:Ea; [|discriminate]. cbn [bind fst snd] in H.
    destruct (features_for_metalabeling p Xp (P, M)) as [Xm|] eqn:Em; [|discriminate]. cbn [bind] in H.
    destruct (need (primary_model p)) as [m|] eqn:En; [|discriminate]. cbn [bind] in H.
    destruct (predict m (values Xp)) as [v|] eqn:Ev; [|discriminate]. cbn [bind] in H.
    destruct (raise_if _ ValueError) eqn:Er2; [|discriminate]. cbn [bind] in H. apply raise_if_Ok in Er2. rewrite negb_false_iff, Nat.eqb_eq in Er2.
    set (ym := map _ (combine yp v)) in H. set (ts := intersection (index Xm) (map fst ym)) in H.
    destruct (loc_f Xm ts) as [X1|] eqn:E1; [|discriminate]. cbn [bind] in H. destruct (loc ym ts) as [y1|] eqn:E2; [|discriminate]. injection H as -> ->.
    unfold loc_f in E1. destruct (loc (rows Xm) ts) as [r1|] eqn:E1'; [|discriminate]. injection E1 as <-.
    destruct (align_X_y_content P y Xp yp HP Hy Ea) as (_ & Np & Tp & _ & _). destruct (align_X_y_ok P y Xp yp Ea) as (Ip & _ & _ & _ & Sp).
    destruct (features_meta_ok p Xp P M Xm HM Np Em) as (Nm & Tm1 & Tm2 & _ & Cm & Rm).
    assert (Iym : map fst ym = index Xp).
    { rewrite Ip. unfold ym. rewrite map_map. cbn [fst]. rewrite <- (map_map fst fst). now rewrite map_fst_combine by lia. }
    assert (Nym : NoDup (map fst ym)) by (now rewrite Iym).
    pose proof (loc_NoDup _ _ _ Nm E1') as I1. pose proof (loc_NoDup _ _ _ Nym E2) as I2.
    assert (Hts : forall t, In t ts <-> usable (map snd P) y t /\ Forall (complete_at t) (map snd M)).
    { intros t. unfold ts. rewrite intersection_In, Iym, Tp. split; [intros (H1 & H2); split; [exact H2|now apply Tm1]|].
      intros (H1 & H2). split; [|exact H1]. apply Tm2; [exact H2|]. now apply Tp. }
    unfold index. cbn [rows]. rewrite I1, I2. split; [reflexivity|]. split; [unfold ts, intersection; apply NoDup_filter, NoDup_nodup|]. split; [exact Hts|].
    exists Xp, yp. split.
    { unfold create_dataset_primary. rewrite Er. cbn [bind]. rewrite Hf. cbn [bind fst]. exact Ea. }
    destruct (loc_ge _ _ _ E1') as (_ & _ & S1). destruct (loc_ge _ _ _ E2) as (_ & _ & S2). split.
    - intros t row Hr. pose proof (S1 _ Hr) as Hr'. split; [exact (Cm _ _ Hr')|]. apply Rm; [exact Hr'|]. apply Tp.
      assert (Ht : In t ts) by (rewrite <- I1; now apply (in_map fst) in Hr). now apply Hts in Ht.
    - intros t x Hx. apply S2 in Hx. unfold ym in Hx. apply in_map_iff in Hx. destruct Hx as ([[u l] q] & Hx & Hin). cbn in Hx.
      assert (Hi : exists i, nth_error yp i = Some (u, l) /\ nth_error v i = Some q).
      { clear -Hin. revert v Hin. induction yp as [|e yp IH]; intros [|w v] []; cbn in *; [|destruct (IH v H) as (i & ?); now exists (S i)]. exists 0. cbn. split; congruence. }
      destruct Hi as (i & H1 & H2). injection Hx as <- <-. exists l, q. split; [exact (proj1 (Sp _ _ (nth_error_In _ _ H1)))|]. split.
      + unfold need in En. destruct (primary_model p) as [pm|]; [|discriminate]. injection En as ->. exists m, v, i. split; [reflexivity|]. split; [exact Ev|].
        split; [|exact H2]. rewrite Ip, nth_error_map, H1. reflexivity.
      + now destruct (eeqb q l).
  Qed.
End Data.
