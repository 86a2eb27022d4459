(** The side and the size of the positions. *)
From Coq Require Import String.
From Verif Require Import Prelude PreludeFacts Num Pipe_Model Pipe_Spec Pipe_Proofs1 Pipe_Proofs2 Pipe_Proofs3 Pipe_Proofs4.
Open Scope nat_scope.

Section Signals.
  Context {A : Type} {HA : Arith A}.
  Notation cell := (ext A).

  Lemma primary_features_ok (P M : dict (frame A)) Xp : good_frames P -> primary_features (P, M) = Ok Xp -> complete_rows (map snd P) Xp.
  Proof.
    intros Hg H. unfold primary_features in H. cbn [fst] in H. destruct (concat_outer (map snd P)) as [X|] eqn:E; [|discriminate]. injection H as <-.
    destruct (concat_outer_dropna (map snd P) X Hg E) as (H1 & H2 & H3). split; [exact H1|]. split; [exact H2|].
    intros t row Hr. rewrite (H3 t row Hr). apply made_of_row_at; [exact Hg|]. apply H2. now apply (in_map fst) in Hr.
  Qed.

  Lemma said_In {V} (method : model A -> list (list cell) -> result (list V)) m X pm vs t x : NoDup (index X) -> m = Some pm -> method pm (values X) = Ok vs ->
    (In (t, x) (combine (index X) vs) <-> said method m X t x).
  Proof.
    intros Hn Hm Hv. split.
    - intros H. apply In_combine_nth in H. destruct H as (i & H1 & H2). exists pm, vs, i. auto.
    - intros (pm' & vs' & i & E1 & E2 & H1 & H2). rewrite Hm in E1. injection E1 as <-. unfold values in Hv. rewrite Hv in E2. injection E2 as <-. now apply (nth_In_combine _ _ _ _ i).
  Qed.

  Lemma make_proba_Ok (m : model A) X q : make_proba m X = Ok q -> exists vs, predict_proba m (values X) = Ok vs /\ q = combine (index X) vs /\ map fst q = index X /\ Forall (fun r => length r = length (classes m)) vs.
  Proof.
    unfold make_proba. destruct (predict_proba m (values X)) as [vs|]; [|discriminate]. cbn [bind]. destruct (forallb _ vs) eqn:Ef; [|discriminate]. intros H.
    apply make_series_Ok in H. destruct H as (_ & -> & H). exists vs. split; [reflexivity|]. split; [reflexivity|]. split; [exact H|].
    apply Forall_forall. rewrite forallb_forall in Ef. intros r Hr. apply Nat.eqb_eq, Ef, Hr.
  Qed.

  Lemma class_position_spec c : forall (l : list cell) k, class_position c l = Ok k <->
    (exists d, nth_error l k = Some d /\ eeqb d c = true) /\ forall j d, j < k -> nth_error l j = Some d -> eeqb d c = false.
  Proof.
    induction l as [|x l IH]; intros k; cbn.
    - split; [discriminate|]. intros ((d & H & _) & _). destruct k; discriminate.
    - destruct (eeqb x c) eqn:E.
      + split.
        * intros [= <-]. split; [exists x; cbn; auto|intros; lia].
        * intros ((d & H & Hd) & Hj). destruct k as [|k]; [reflexivity|]. specialize (Hj 0 x (Nat.lt_0_succ _) eq_refl). congruence.
      + destruct (class_position c l) as [k'|e] eqn:Ek; cbn [bind].
        * destruct (proj1 (IH k') eq_refl) as (H1 & H2). split.
          -- intros [= <-]. split; [exact H1|]. intros [|j] d Hj Hd; cbn in Hd; [congruence|]. apply (H2 j); [lia|exact Hd].
          -- intros ((d & H & Hd) & Hj). destruct k as [|k]; [cbn in H; congruence|]. f_equal. f_equal. assert (Ok k' = Ok k) as [= ->]; [|reflexivity].
             apply IH. split; [exists d; auto|]. intros j d' Hlt Hd'. apply (Hj (S j) d'); [lia|exact Hd'].
        * split; [discriminate|]. intros ((d & H & Hd) & Hj). destruct k as [|k]; [cbn in H; congruence|]. exfalso.
          assert (Err e = Ok k) as [=]. apply IH. split; [exists d; auto|]. intros j d' Hlt Hd'. apply (Hj (S j) d'); [lia|exact Hd'].
  Qed.

  (** The joined frame. *)
  Lemma join_series_ok (a b : list (Z * cell)) df : NoDup (map fst a) -> join_series a b = Ok df ->
    columns df = ["side"; "size"]%string /\ NoDup (map fst b) /\ NoDup (index (dropna df)) /\
    forall t row, In (t, row) (rows (dropna df)) <-> exists x y, row = [x; y] /\ x <> NaN /\ y <> NaN /\ In (t, x) a /\ In (t, y) b.
  Proof.
    unfold join_series. set (fa := {| columns := ["side"%string]; rows := map (fun e => (fst e, [snd e])) a |}). set (fb := {| columns := ["size"%string]; rows := map (fun e => (fst e, [snd e])) b |}).
    intros Ha H. assert (Ia : index fa = map fst a) by (unfold index; cbn [fa rows]; rewrite map_map; reflexivity). assert (Ib : index fb = map fst b) by (unfold index; cbn [fb rows]; rewrite map_map; reflexivity).
    assert (Na : NoDup (index fa)) by (now rewrite Ia).
    assert (Nb : NoDup (index fb)).
    { unfold concat2 in H. destruct (same_index (index fa) (index fb)) eqn:E; [apply same_index_spec in E; now rewrite <- E|].
      destruct (unique_index (index fb)) eqn:Eb; [now apply unique_index_spec|]. rewrite andb_false_r in H. discriminate. }
    destruct (concat2_frame fa fb Na Nb) as (g & Eg & Cg & _ & Fg). rewrite H in Eg. injection Eg as <-.
    split; [exact Cg|]. split; [now rewrite <- Ib|]. destruct (dropna_frame df _ _ Fg) as (D1 & D2 & D3). split; [exact D1|].
    assert (Ra : forall t x, In (t, x) a -> row_at fa t = [x]).
    { intros t x Hx. apply row_at_In; [exact Na|]. cbn [fa rows]. apply in_map_iff. exists (t, x). auto. }
    assert (Rb : forall t x, In (t, x) b -> row_at fb t = [x]).
    { intros t x Hx. apply row_at_In; [exact Nb|]. cbn [fb rows]. apply in_map_iff. exists (t, x). auto. }
    intros t row. split.
    - intros Hr. pose proof (D3 t row Hr) as Er. assert (Ht : In t (index (dropna df))) by (now apply (in_map fst) in Hr). apply D2 in Ht. destruct Ht as (_ & Hn).
      destruct (in_dec Z.eq_dec t (index fa)) as [Hta|Hta]; [|exfalso; apply Hn; rewrite (row_at_none fa t Hta); cbn; tauto].
      destruct (in_dec Z.eq_dec t (index fb)) as [Htb|Htb]; [|exfalso; apply Hn; rewrite in_app_iff, (row_at_none fb t Htb); cbn; tauto].
      rewrite Ia in Hta. rewrite Ib in Htb. apply In_key in Hta, Htb. destruct Hta as (x & Hx), Htb as (y & Hy). rewrite (Ra t x Hx), (Rb t y Hy) in Er, Hn. exists x, y. split; [exact Er|].
      cbn in Hn. split; [intros ->; tauto|]. split; [intros ->; tauto|]. split; assumption.
    - intros (x & y & -> & Hx & Hy & Hxa & Hyb).
      assert (Ht : In t (index (dropna df))).
      { apply D2. rewrite (Ra t x Hxa), (Rb t y Hyb). split; [left; rewrite Ia; now apply (in_map fst) in Hxa|]. cbn. intros [E|[E|[]]]; congruence. }
      pose proof (In_row_at _ t D1 Ht) as Hr. pose proof (D3 _ _ Hr) as Er. rewrite (Ra t x Hxa), (Rb t y Hyb) in Er. cbn in Er. now rewrite Er in Hr.
  Qed.

  Lemma In_mapM_pair {V W} (f : Z * V -> result (Z * W)) g (l : list (Z * V)) r : (forall e, f e = do x <- g e ;; Ok (fst e, x)) -> mapM f l = Ok r ->
    map fst r = map fst l /\ forall t x, In (t, x) r <-> exists v, In (t, v) l /\ g (t, v) = Ok x.
  Proof.
    intros Hf. revert r. induction l as [|[u v] l IH]; intros r H; cbn in H.
    - injection H as <-. split; [reflexivity|]. intros t x. split; [intros []|intros (w & [] & _)].
    - rewrite Hf in H. destruct (g (u, v)) as [x0|] eqn:Eg; [|discriminate]. cbn [bind fst] in H. destruct (mapM f l) as [r'|]; [|discriminate]. injection H as <-.
      destruct (IH r' eq_refl) as (H1 & H2). split; [cbn; now rewrite H1|]. intros t x. split.
      + intros [[= <- <-]|Hin]; [exists v; split; [now left|exact Eg]|]. apply H2 in Hin. destruct Hin as (w & Hw & Ew). exists w. split; [now right|exact Ew].
      + intros (w & [[= -> ->]|Hw] & Ew); [left; congruence|]. right. apply H2. now exists w.
  Qed.

  Theorem side_and_size_ok (p : pipeline A) X P M df : features_of p X = Ok (P, M) -> good_frames P -> (metalabeling_model p <> None -> good_frames M) ->
    get_side_and_size p X = Ok df ->
    columns df = ["side"; "size"]%string /\ NoDup (index df) /\
    exists Xp Xs sizes, complete_rows (map snd P) Xp /\ decider_features p (P, M) Xp Xs /\ right_sizes p Xp Xs sizes /\
      (forall t, In t (index Xp) -> exists side, said predict (primary_model p) Xp t side) /\
      (forall t, In t (index Xs) -> exists probs, said predict_proba (decider p) Xs t probs) /\
      forall t row, In (t, row) (rows df) <-> exists side size, row = [side; size] /\ side <> NaN /\ size <> NaN /\ said predict (primary_model p) Xp t side /\ In (t, size) sizes.
  Proof.
    intros Hf HP HM H. unfold get_side_and_size in H.
    destruct (predict_all p X) as [preds|] eqn:E1; [|discriminate]. cbn [bind] in H. destruct (predict_proba_all p X) as [probs|] eqn:E2; [|discriminate]. cbn [bind] in H.
    destruct (need (primary_model p)) as [m|] eqn:Em; [|discriminate]. cbn [bind] in H.
    assert (Epm : primary_model p = Some m) by (unfold need in Em; destruct (primary_model p); [congruence|discriminate]).
    (* the predictions *)
    unfold predict_proba_all in E2. rewrite Hf in E2. cbn [bind] in E2. destruct (primary_features (P, M)) as [Xp|] eqn:Ep; [|discriminate]. cbn [bind] in E2.
    rewrite Em in E2. cbn [bind] in E2. destruct (make_proba m Xp) as [prob|] eqn:Eprob; [|discriminate]. cbn [bind] in E2.
    pose proof (primary_features_ok P M Xp HP Ep) as FXp. pose proof (proj1 FXp) as NXp.
    assert (Hpred : exists v, predict m (values Xp) = Ok v /\ fst preds = combine (index Xp) v /\ map fst (fst preds) = index Xp).
    { unfold predict_all in E1. match type of E1 with bind ?c _ = _ => destruct c; [|discriminate] end. cbn [bind] in E1. destruct (lookup X (align_on p)); [|discriminate]. cbn [bind] in E1.
      match type of E1 with bind ?c _ = _ => destruct c; [|discriminate] end. cbn [bind] in E1. rewrite Hf in E1. cbn [bind] in E1. rewrite Ep in E1. cbn [bind] in E1. rewrite Em in E1. cbn [bind] in E1.
      destruct (predict m (values Xp)) as [v|]; [|discriminate]. cbn [bind] in E1. destruct (make_series (index Xp) v) as [s|] eqn:Es; [|discriminate]. cbn [bind] in E1. apply make_series_Ok in Es. destruct Es as (_ & -> & Es).
      exists v. split; [reflexivity|]. destruct (metalabeling_model p); [|injection E1 as <-; auto].
      destruct (features_for_metalabeling p Xp (P, M)) as [Xm|]; [|discriminate]. cbn [bind] in E1. destruct (predict m0 (values Xm)); [|discriminate]. cbn [bind] in E1. destruct (make_series (index Xm) _); [|discriminate]. injection E1 as <-. auto. }
    destruct Hpred as (v & Ev & Epr & Ipr).
    assert (Hside : forall t x, In (t, x) (fst preds) <-> said predict (primary_model p) Xp t x) by (intros t x; rewrite Epr; now apply (said_In predict _ Xp m v)).
    (* the model that decides *)
    assert (HXs : exists Xs mm q, decider p = Some mm /\ decider_features p (P, M) Xp Xs /\ NoDup (index Xs) /\ make_proba mm Xs = Ok q /\
       (match metalabeling_model p, snd probs with Some mm, Some q => (q, classes mm) | _, _ => (fst probs, classes m) end) = (q, classes mm)).
    { unfold decider, decider_features. destruct (metalabeling_model p) as [mm|].
      - destruct (raise_if (negb (fitted mm)) NotFittedError); [|discriminate]. cbn [bind] in E2. destruct (features_for_metalabeling p Xp (P, M)) as [Xm|] eqn:EXm; [|discriminate]. cbn [bind] in E2.
        destruct (make_proba mm Xm) as [mprob|] eqn:Emp; [|discriminate]. injection E2 as <-. exists Xm, mm, mprob. cbn [snd].
        destruct (features_meta_ok p Xp P M Xm (HM ltac:(discriminate)) NXp EXm) as (G1 & G2 & G3 & _ & _ & G4). split; [reflexivity|]. split; [|auto]. repeat split; auto.
      - injection E2 as <-. exists Xp, m, prob. auto 10. }
    destruct HXs as (Xs & mm & q & Hd & HXs & NXs & Eq & Esel). rewrite Esel in H. clear Esel E2.
    apply make_proba_Ok in Eq. destruct Eq as (vs & Evs & -> & Iq & Hlen).
    assert (Hq : forall t r, In (t, r) (combine (index Xs) vs) <-> said predict_proba (decider p) Xs t r) by (intros t r; now apply (said_In predict_proba _ Xs mm vs)).
    match type of H with bind ?c _ = _ => destruct c as [sizes|] eqn:Esz; [|discriminate] end. cbn [bind] in H.
    destruct (join_series (fst preds) sizes) as [j|] eqn:Ej; [|discriminate]. injection H as <-.
    assert (Npr : NoDup (map fst (fst preds))) by (now rewrite Ipr).
    destruct (join_series_ok _ _ _ Npr Ej) as (J1 & J2 & J3 & J4). split; [exact J1|]. split; [exact J3|].
    exists Xp, Xs, sizes. split; [exact FXp|]. split; [exact HXs|]. split.
    - unfold right_sizes. destruct (bet_sizer p) as [sizer|].
      + match type of Esz with bind ?c _ = _ => destruct c as [rs|] eqn:Ers; [|discriminate] end. cbn [bind] in Esz.
        assert (Hff : forall r : Z * list cell, (do k <- argmax (snd r) ;; do c <- get (classes mm) k ;; Ok (fst r, (row_max (snd r), c))) =
          do x <- (do k <- argmax (snd r) ;; do c <- get (classes mm) k ;; Ok (row_max (snd r), c)) ;; Ok (fst r, x)).
        { intros r. destruct (argmax (snd r)) as [k|]; [cbn [bind]; now destruct (get (classes mm) k)|reflexivity]. }
        destruct (In_mapM_pair _ (fun r : Z * list cell => do k <- argmax (snd r) ;; do c <- get (classes mm) k ;; Ok (row_max (snd r), c)) _ _ Hff Ers) as (Irs & Hrs).
        rewrite Iq in Irs.
        assert (Hrs' : forall t x, In (t, x) rs -> exists probs0 k c, said predict_proba (decider p) Xs t probs0 /\ argmax probs0 = Ok k /\ nth_error (classes mm) k = Some c /\ x = (row_max probs0, c)).
        { intros t x Hx. apply Hrs in Hx. destruct Hx as (r & Hr & Ex). cbn [snd] in Ex. destruct (argmax r) as [k|] eqn:Ek; [|discriminate]. cbn [bind] in Ex.
          destruct (get (classes mm) k) as [c|] eqn:Ec; [|discriminate]. injection Ex as <-. exists r, k, c. apply get_Ok in Ec. apply Hq in Hr. auto. }
        unfold sizer_input. destruct (metalabeling_model p) as [mm'|].
        * rewrite aligned_values_NoDup in Esz by (rewrite ?Irs; assumption). cbn [bind] in Esz. eexists. split; [exact Esz|].
          assert (Hl : length rs = length (map (series_at (fst preds)) (map fst rs))) by (now rewrite !map_length). split.
          { rewrite map_map. cbn [fst]. rewrite <- (map_map fst fst), map_fst_combine by exact Hl. exact Irs. }
          intros t x Hx. apply in_map_iff in Hx. destruct Hx as ([[u y] sd] & Hx & Hin). cbn in Hx. injection Hx as <- <-.
          pose proof (in_combine_l _ _ _ _ Hin) as Hy. destruct (Hrs' u y Hy) as (pr & k & c & G1 & G2 & G3 & ->). exists mm, pr, k, c. repeat split; auto.
          exists sd. split; [reflexivity|]. intros Hu. apply Hside.
          assert (Esd : sd = series_at (fst preds) u).
          { clear -Hin. induction rs as [|e rs IH]; [destruct Hin|]. cbn in Hin. destruct Hin as [[= -> <-]|Hin]; [reflexivity|now apply IH]. }
          rewrite Esd. rewrite <- Ipr in Hu. apply In_key in Hu. destruct Hu as (z & Hz). now rewrite (series_at_In _ u z Npr Hz).
        * eexists. split; [exact Esz|]. split; [rewrite map_map; exact Irs|]. intros t x Hx. apply in_map_iff in Hx. destruct Hx as ([u y] & Hx & Hin). cbn in Hx. injection Hx as <- <-.
          destruct (Hrs' u y Hin) as (pr & k & c & G1 & G2 & G3 & ->). exists mm, pr, k, c. repeat split; auto.
      + unfold sizes_without_sizer. destruct (metalabeling_model p) as [mm'|].
        * destruct (class_position (Fin a1) (classes mm)) as [k|] eqn:Ek; [|discriminate]. cbn [bind] in Esz.
          destruct (In_mapM_pair _ (fun r : Z * list cell => get (snd r) k) _ _ (fun e => eq_refl) Esz) as (_ & Hs).
          apply class_position_spec in Ek. destruct Ek as ((c & Hc & Ec) & Hfirst). intros t size. rewrite Hs. split.
          -- intros (r & Hr & Hg). exists mm, r. split; [exact Hd|]. split; [now apply Hq|]. exists k, c. apply get_Ok in Hg. auto.
          -- intros (m' & r & Hd' & Hr & k' & c' & Hc' & Ec' & Hf' & Hn). rewrite Hd in Hd'. injection Hd' as <-. exists r. split; [now apply Hq|]. cbn [snd]. apply get_Ok.
             assert (k' = k) as ->; [|exact Hn]. destruct (Nat.lt_trichotomy k k') as [Hlt|[->|Hlt]]; [|reflexivity|].
             ++ specialize (Hf' k c Hlt Hc). congruence.
             ++ specialize (Hfirst k' c' Hlt Hc'). congruence.
        * injection Esz as <-. intros t size. rewrite in_map_iff. split.
          -- intros ([u r] & Hx & Hr). cbn in Hx. injection Hx as <- <-. exists mm, r. split; [exact Hd|]. split; [now apply Hq|reflexivity].
          -- intros (m' & r & _ & Hr & ->). exists (t, r). split; [reflexivity|]. now apply Hq.
    - split.
      { intros t Ht. rewrite <- Ipr in Ht. apply In_key in Ht. destruct Ht as (x & Hx). exists x. now apply Hside. }
      split.
      { intros t Ht. rewrite <- Iq in Ht. apply In_key in Ht. destruct Ht as (x & Hx). exists x. now apply Hq. }
      intros t row. rewrite J4. split; intros (x & y & G1 & G2 & G3 & G4 & G5); exists x, y; (repeat split; auto); now apply Hside.
  Qed.
End Signals.
