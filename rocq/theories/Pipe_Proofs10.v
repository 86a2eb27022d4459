(** What predict and predict_proba return. *)
From Coq Require Import String.
From Verif Require Import Prelude PreludeFacts Num Pipe_Model Pipe_Spec Pipe_Proofs1 Pipe_Proofs2 Pipe_Proofs3 Pipe_Proofs4 Pipe_Proofs5.
Open Scope nat_scope.

Section Predictions.
  Context {A : Type} {HA : Arith A}.
  Notation cell := (ext A).

  Lemma predict_all_Ok (p : pipeline A) X P M s ms : features_of p X = Ok (P, M) -> predict_all p X = Ok (s, ms) ->
    exists Xp m v, primary_features (P, M) = Ok Xp /\ primary_model p = Some m /\ predict m (values Xp) = Ok v /\ s = combine (index Xp) v /\ map fst s = index Xp /\
    match metalabeling_model p with
    | None => ms = None
    | Some mm => fitted mm = true /\ exists Xm w, features_for_metalabeling p Xp (P, M) = Ok Xm /\ predict mm (values Xm) = Ok w /\ ms = Some (combine (index Xm) w) /\ map fst (combine (index Xm) w) = index Xm
    end.
  Proof.
    intros Hf E1. unfold predict_all in E1. destruct (match metalabeling_model p with Some m => _ | None => _ end) as [u|] eqn:Efit; [|discriminate]. cbn [bind] in E1. destruct (lookup X (align_on p)); [|discriminate]. cbn [bind] in E1.
    match type of E1 with bind ?c _ = _ => destruct c; [|discriminate] end. cbn [bind] in E1. rewrite Hf in E1. cbn [bind] in E1. destruct (primary_features (P, M)) as [Xp|] eqn:Ep; [|discriminate]. cbn [bind] in E1.
    destruct (primary_model p) as [m|] eqn:Em; [|discriminate]. cbn [need bind] in E1.
    destruct (predict m (values Xp)) as [v|] eqn:Ev; [|discriminate]. cbn [bind] in E1. destruct (make_series (index Xp) v) as [s0|] eqn:Es; [|discriminate]. cbn [bind] in E1. apply make_series_Ok in Es. destruct Es as (_ & -> & Es).
    exists Xp, m, v. do 3 (split; [assumption || reflexivity|]). destruct (metalabeling_model p) as [mm|]; [|injection E1 as <- <-; auto].
    destruct (features_for_metalabeling p Xp (P, M)) as [Xm|] eqn:EXm; [|discriminate]. cbn [bind] in E1. destruct (predict mm (values Xm)) as [w|] eqn:Ew; [|discriminate]. cbn [bind] in E1.
    destruct (make_series (index Xm) w) as [s2|] eqn:Es2; [|discriminate]. apply make_series_Ok in Es2. destruct Es2 as (_ & -> & Es2). injection E1 as <- <-. split; [reflexivity|]. split; [exact Es|].
    split; [destruct (fitted mm); [reflexivity|discriminate]|]. exists Xm, w. auto.
  Qed.
  Lemma predict_proba_all_Ok (p : pipeline A) X P M s ms : features_of p X = Ok (P, M) -> predict_proba_all p X = Ok (s, ms) ->
    exists Xp m v, primary_features (P, M) = Ok Xp /\ primary_model p = Some m /\ predict_proba m (values Xp) = Ok v /\ s = combine (index Xp) v /\ map fst s = index Xp /\ Forall (fun r => length r = length (classes m)) v /\
    match metalabeling_model p with
    | None => ms = None
    | Some mm => fitted mm = true /\ exists Xm w, features_for_metalabeling p Xp (P, M) = Ok Xm /\ predict_proba mm (values Xm) = Ok w /\ ms = Some (combine (index Xm) w) /\ map fst (combine (index Xm) w) = index Xm /\
        Forall (fun r => length r = length (classes mm)) w
    end.
  Proof.
    intros Hf E2. unfold predict_proba_all in E2. rewrite Hf in E2. cbn [bind] in E2. destruct (primary_features (P, M)) as [Xp|] eqn:Ep; [|discriminate]. cbn [bind] in E2.
    destruct (primary_model p) as [m|] eqn:Em; [|discriminate]. cbn [need bind] in E2. destruct (make_proba m Xp) as [prob|] eqn:Eprob; [|discriminate]. cbn [bind] in E2.
    destruct (make_proba_Ok m Xp prob Eprob) as (v & Ev & -> & I1 & L1). exists Xp, m, v. do 3 (split; [assumption || reflexivity|]).
    destruct (metalabeling_model p) as [mm|]; [|injection E2 as <- <-; auto]. destruct (fitted mm) eqn:Efit; [|discriminate]. cbn [negb raise_if bind] in E2.
    destruct (features_for_metalabeling p Xp (P, M)) as [Xm|] eqn:EXm; [|discriminate]. cbn [bind] in E2. destruct (make_proba mm Xm) as [mprob|] eqn:Emp; [|discriminate]. injection E2 as <- <-.
    destruct (make_proba_Ok mm Xm mprob Emp) as (w & Ew & -> & I2 & L2). do 3 (split; [assumption || reflexivity|]). split; [reflexivity|]. exists Xm, w. auto 10.
  Qed.

  Lemma decider_meta (p : pipeline A) P M Xp Xm mm : metalabeling_model p = Some mm -> good_frames M -> NoDup (index Xp) -> features_for_metalabeling p Xp (P, M) = Ok Xm -> decider_features p (P, M) Xp Xm /\ NoDup (index Xm).
  Proof.
    intros Em HM Hn EXm. unfold decider_features. rewrite Em. destruct (features_meta_ok p Xp P M Xm HM Hn EXm) as (G1 & G2 & G3 & _ & _ & G4). split; [|exact G1]. repeat split; auto.
  Qed.

  Theorem predictions_ok (p : pipeline A) X P M s ms : features_of p X = Ok (P, M) -> good_frames P -> (metalabeling_model p <> None -> good_frames M) ->
    predict_all p X = Ok (s, ms) ->
    exists Xp, complete_rows (map snd P) Xp /\ map fst s = index Xp /\ (forall t x, In (t, x) s <-> said predict (primary_model p) Xp t x) /\
    match metalabeling_model p with
    | None => ms = None
    | Some mm => exists Xs q, decider_features p (P, M) Xp Xs /\ ms = Some q /\ map fst q = index Xs /\ (forall t x, In (t, x) q <-> said predict (Some mm) Xs t x)
    end.
  Proof.
    intros Hf HP HM H. destruct (predict_all_Ok p X P M s ms Hf H) as (Xp & m & v & Ep & Em & Ev & -> & Is & Hmeta). pose proof (primary_features_ok P M Xp HP Ep) as FXp. pose proof (proj1 FXp) as NXp.
    exists Xp. split; [exact FXp|]. split; [exact Is|]. split; [intros t x; now apply (said_In predict _ Xp m v)|].
    destruct (metalabeling_model p) as [mm|] eqn:Emm; [|exact Hmeta]. destruct Hmeta as (_ & Xm & w & EXm & Ew & -> & Iw). destruct (decider_meta p P M Xp Xm mm Emm (HM ltac:(discriminate)) NXp EXm) as (D & NXm).
    exists Xm, (combine (index Xm) w). split; [exact D|]. split; [reflexivity|]. split; [exact Iw|]. intros t x. now apply (said_In predict _ Xm mm w).
  Qed.
  Theorem probabilities_all_ok (p : pipeline A) X P M s ms : features_of p X = Ok (P, M) -> good_frames P -> (metalabeling_model p <> None -> good_frames M) ->
    predict_proba_all p X = Ok (s, ms) ->
    exists Xp m, complete_rows (map snd P) Xp /\ primary_model p = Some m /\ map fst s = index Xp /\ (forall t x, In (t, x) s <-> said predict_proba (Some m) Xp t x) /\ (forall t x, In (t, x) s -> length x = length (classes m)) /\
    match metalabeling_model p with
    | None => ms = None
    | Some mm => exists Xs q, decider_features p (P, M) Xp Xs /\ ms = Some q /\ map fst q = index Xs /\ (forall t x, In (t, x) q <-> said predict_proba (Some mm) Xs t x) /\ (forall t x, In (t, x) q -> length x = length (classes mm))
    end.
  Proof.
    intros Hf HP HM H. destruct (predict_proba_all_Ok p X P M s ms Hf H) as (Xp & m & v & Ep & Em & Ev & -> & Is & Lv & Hmeta). pose proof (primary_features_ok P M Xp HP Ep) as FXp. pose proof (proj1 FXp) as NXp.
    exists Xp, m. split; [exact FXp|]. split; [exact Em|]. split; [exact Is|]. split; [intros t x; now apply (said_In predict_proba _ Xp m v)|].
    split; [intros t x Hx; rewrite Forall_forall in Lv; apply Lv; exact (in_combine_r _ _ _ _ Hx)|].
    destruct (metalabeling_model p) as [mm|] eqn:Emm; [|exact Hmeta]. destruct Hmeta as (_ & Xm & w & EXm & Ew & -> & Iw & Lw). destruct (decider_meta p P M Xp Xm mm Emm (HM ltac:(discriminate)) NXp EXm) as (D & NXm).
    exists Xm, (combine (index Xm) w). split; [exact D|]. split; [reflexivity|]. split; [exact Iw|]. split; [intros t x; now apply (said_In predict_proba _ Xm mm w)|].
    intros t x Hx. rewrite Forall_forall in Lw. apply Lw. exact (in_combine_r _ _ _ _ Hx).
  Qed.
  Theorem same_times (p : pipeline A) X s ms q mq : predict_all p X = Ok (s, ms) -> predict_proba_all p X = Ok (q, mq) -> map fst s = map fst q /\ option_map (map fst) ms = option_map (map fst) mq.
  Proof.
    intros H1 H2. destruct (features_of p X) as [[P M]|] eqn:Hf; [|unfold predict_proba_all in H2; rewrite Hf in H2; discriminate].
    destruct (predict_all_Ok p X P M s ms Hf H1) as (Xp & m & v & Ep & Em & Ev & Es & Is & Hm1). destruct (predict_proba_all_Ok p X P M q mq Hf H2) as (Xp' & m' & v' & Ep' & Em' & Ev' & Eq & Iq & _ & Hm2).
    assert (Xp' = Xp) by congruence. subst Xp'. split; [congruence|]. destruct (metalabeling_model p) as [mm|]; [|subst; reflexivity].
    destruct Hm1 as (_ & Xm & w & E1 & _ & -> & I1), Hm2 as (_ & Xm' & w' & E2 & _ & -> & I2 & _). assert (Xm' = Xm) by congruence. subst Xm'. cbn [option_map]. congruence.
  Qed.
  Theorem unfitted_refused (p : pipeline A) X mm : metalabeling_model p = Some mm -> fitted mm = false ->
    predict_all p X = Err NotFittedError /\ is_ok (predict_proba_all p X) = false /\ is_ok (get_side_and_size p X) = false.
  Proof.
    intros Em Hf. assert (E : predict_all p X = Err NotFittedError) by (unfold predict_all; rewrite Em, Hf; reflexivity). split; [exact E|]. split.
    - unfold predict_proba_all. destruct (features_of p X) as [fs|]; [|reflexivity]. cbn [bind]. destruct (primary_features fs) as [Xp|]; [|reflexivity]. cbn [bind]. destruct (need (primary_model p)) as [m|]; [|reflexivity]. cbn [bind].
      destruct (make_proba m Xp); [|reflexivity]. cbn [bind]. rewrite Em, Hf. reflexivity.
    - unfold get_side_and_size. rewrite E. reflexivity.
  Qed.
  (** Data that ends before the leading data starts. *)
  Theorem outdated_refused (p : pipeline A) X lead t0 : lookup X (align_on p) = Ok lead -> head (index lead) = Some t0 ->
    (exists key f, In (key, f) X /\ index f <> [] /\ forall t, In t (index f) -> (t < t0)%Z) -> is_ok (predict_all p X) = false.
  Proof.
    intros Hl Hh (key & f & Hin & Hne & Hlt). unfold predict_all. destruct (match metalabeling_model p with Some m => _ | None => _ end) as [u|]; [|reflexivity]. cbn [bind]. rewrite Hl. cbn [bind].
    match goal with |- is_ok (bind ?c _) = false => destruct c as [l|] eqn:E; [|reflexivity] end. exfalso. destruct (index lead) as [|t1 r]; [discriminate|]. cbn in Hh. injection Hh as ->.
    clear -Hin Hne Hlt E. revert l E. induction X as [|[k g] X IH]; [destruct Hin|]. intros l E. cbn [mapM snd] in E. destruct Hin as [[= -> ->]|Hin].
    - destruct (rev (index f)) as [|z r'] eqn:Er; [apply (f_equal (@rev Z)) in Er; rewrite rev_involutive in Er; contradiction|]. assert (Hz : In z (index f)) by (apply in_rev; rewrite Er; now left).
      specialize (Hlt z Hz). apply Z.ltb_lt in Hlt. rewrite Hlt in E. discriminate.
    - match type of E with bind ?c _ = _ => destruct c; [|discriminate] end. cbn [bind] in E. destruct (mapM _ X) as [l'|] eqn:E'; [|discriminate]. exact (IH Hin l' eq_refl).
  Qed.
End Predictions.
