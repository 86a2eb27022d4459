(** Creating a position twice. *)
From Coq Require Import String QArith.
From Verif Require Import Prelude PreludeFacts Num Pipe_Model Pipe_Spec Pipe_Proofs1 Pipe_Proofs2 Pipe_Proofs3 Pipe_Proofs4 Pipe_Proofs5 Pipe_Proofs7.
Open Scope nat_scope.

Section Again.
  Context {A : Type} {HA : Arith A}.
  Notation cell := (ext A).

  Lemma same_except_refl (f : frame A) : same_except_bars f f.
  Proof. split; [reflexivity|]. intros; reflexivity. Qed.
  Definition same_dict (d d' : dict (frame A)) : Prop := Forall2 (fun x y => fst x = fst y /\ same_except_bars (snd x) (snd y)) d d'.

  Lemma same_keys_of d d' : same_dict d d' -> keys d = keys d'.
  Proof. unfold keys. intros H. induction H as [|x y d d' (E & _) H IH]; [reflexivity|]. cbn. now rewrite E, IH. Qed.
  Lemma same_lookup d d' k f : same_dict d d' -> lookup d k = Ok f -> exists f', lookup d' k = Ok f' /\ same_except_bars f f'.
  Proof.
    intros H. induction H as [|[k1 f1] [k2 f2] d d' (E & Ha) Hd IH]; cbn; [discriminate|]. cbn in E, Ha. subst k2. destruct (String.eqb k1 k); [intros [= <-]; now exists f2|exact IH].
  Qed.
  Lemma same_lookup_err d d' k e : same_dict d d' -> lookup d k = Err e -> lookup d' k = Err e.
  Proof. intros H. induction H as [|[k1 f1] [k2 f2] d d' (E & Ha) Hd IH]; cbn; [easy|]. cbn in E. subst k2. destruct (String.eqb k1 k); [discriminate|exact IH]. Qed.

  Lemma deref_lookup (h : list (frame A)) X Xf : deref h X = Ok Xf -> forall k f, lookup Xf k = Ok f <-> exists b, lookup X k = Ok b /\ nth_error h b = Some f.
  Proof.
    unfold deref. revert Xf. induction X as [|[k1 b1] X IH]; intros Xf H k f; cbn in H.
    - injection H as <-. cbn. split; [discriminate|]. intros (b & Hb & _). discriminate.
    - destruct (get h b1) as [f1|] eqn:E1; [|discriminate]. cbn [bind] in H. destruct (mapM _ X) as [r|]; [|discriminate]. injection H as <-. cbn. apply get_Ok in E1.
      destruct (String.eqb k1 k); [|now apply IH]. split; [intros [= <-]; now exists b1|]. intros (b & [= <-] & Hb). congruence.
  Qed.

  Section Two.
    Variables (h h' : list (frame A)) (X : dict nat) (a : nat) (f f' : frame A).
    Hypothesis Ef : nth_error h a = Some f.
    Hypothesis Ef' : nth_error h' a = Some f'.
    Hypothesis Es : same_except_bars f f'.
    Hypothesis Eo : forall b, b <> a -> nth_error h' b = nth_error h b.

    Lemma deref_again : forall Xf, deref h X = Ok Xf -> exists Xf', deref h' X = Ok Xf' /\ same_dict Xf Xf'.
    Proof.
      unfold deref. induction X as [|[k b] Y IH]; intros Xf H; cbn in H.
      - injection H as <-. exists []. split; [reflexivity|constructor].
      - destruct (get h b) as [g|] eqn:Eg; [|discriminate]. cbn [bind] in H. destruct (mapM _ Y) as [r|] eqn:Er; [|discriminate]. injection H as <-. destruct (IH r eq_refl) as (r' & Er' & Hr').
        apply get_Ok in Eg. assert (Hg : exists g', nth_error h' b = Some g' /\ same_except_bars g g').
        { destruct (Nat.eq_dec b a) as [->|Hb]; [exists f'; split; [exact Ef'|congruence]|]. exists g. split; [now rewrite Eo|apply same_except_refl]. }
        destruct Hg as (g' & Eg' & Hg). exists ((k, g') :: r'). split; [cbn [mapM fst snd]; rewrite (proj2 (get_Ok h' b g') Eg'); cbn [bind]; now rewrite Er'|]. constructor; [now split|exact Hr'].
    Qed.

    Variables (p : pipeline A) (Xf Xf' : dict (frame A)).
    Hypothesis Ea : lookup X (align_on p) = Ok a.
    Hypothesis Ed : deref h X = Ok Xf.
    Hypothesis Ed' : deref h' X = Ok Xf'.
    Hypothesis Hs : same_dict Xf Xf'.
    Hypothesis Hu : bars_not_used p X.

    Lemma run_again ts : incl ts (primary_transformers p ++ meta_transformers p) -> run_transformers ts Xf' = run_transformers ts Xf.
    Proof.
      destruct Hu as (H1 & H2). intros Hi. unfold run_transformers. apply mapM_ext_In. intros [k tr] Hin. cbn [fst snd]. specialize (Hi _ Hin). destruct (lookup Xf k) as [g|e] eqn:Eg.
      - destruct (same_lookup _ _ _ _ Hs Eg) as (g' & Eg' & Hg). rewrite Eg'. cbn [bind]. destruct tr as [tr|]; [now rewrite (H1 k tr Hi g g' Hg)|].
        assert (E : g' = g); [|now rewrite E]. apply (deref_lookup h X Xf Ed) in Eg. destruct Eg as (b & Hb & Eg). apply (deref_lookup h' X Xf' Ed') in Eg'. destruct Eg' as (b' & Hb' & Eg').
        assert (b' = b) by congruence. subst b'. destruct (Nat.eq_dec b a) as [->|Hne]; [destruct (H2 k a Hi Hb Ea)|]. rewrite Eo in Eg' by exact Hne. congruence.
      - rewrite (same_lookup_err _ _ _ _ Hs Eg). reflexivity.
    Qed.
    Lemma features_again : features_of p Xf' = features_of p Xf.
    Proof.
      unfold features_of, transform. rewrite <- (same_keys_of _ _ Hs). rewrite !run_again by (intros x Hx; apply in_or_app; tauto). reflexivity.
    Qed.
    Lemma mapM_Forall2 {T U V} (g : T -> result V) (g' : U -> result V) l l' : Forall2 (fun x y => g x = g' y) l l' -> mapM g l = mapM g' l'.
    Proof. intros H. induction H as [|x y l l' E H IH]; [reflexivity|]. cbn. now rewrite E, IH. Qed.
    Lemma predict_again : predict_all p Xf' = predict_all p Xf.
    Proof.
      unfold predict_all. rewrite features_again. destruct (match metalabeling_model p with Some m => _ | None => _ end); [|reflexivity]. cbn [bind].
      destruct (lookup Xf (align_on p)) as [lead|e] eqn:El; [|now rewrite (same_lookup_err _ _ _ _ Hs El)]. destruct (same_lookup _ _ _ _ Hs El) as (lead' & El' & (Hi & _)). rewrite El'. cbn [bind]. rewrite <- Hi.
      rewrite (mapM_Forall2 (fun kf => match index lead, rev (index (snd kf)) with t :: _, last :: _ => raise_if (last <? t)%Z ValueError | _, _ => Err IndexError end)
                            (fun kf => match index lead, rev (index (snd kf)) with t :: _, last :: _ => raise_if (last <? t)%Z ValueError | _, _ => Err IndexError end) Xf' Xf); [reflexivity|].
      clear -Hs. induction Hs as [|x y d d' (_ & (E & _)) H IH]; [constructor|]. constructor; [now rewrite E|exact (IH H)].
    Qed.
    Lemma signal_again (tr : trader A) : strategy tr = p -> create_signal tr Xf' = create_signal tr Xf.
    Proof.
      intros Ep. unfold create_signal. rewrite Ep. unfold get_side_and_size, predict_proba_all. rewrite predict_again, features_again.
      assert (E : check_X_dict Xf' = check_X_dict Xf); [|now rewrite E]. unfold check_X_dict.
      rewrite (mapM_Forall2 (fun kf => raise_if (negb (unique_index (index (snd kf)))) ValueError) (fun kf => raise_if (negb (unique_index (index (snd kf)))) ValueError) Xf' Xf); [reflexivity|].
      clear -Hs. induction Hs as [|x y d d' (_ & (E & _)) H IH]; [constructor|]. constructor; [now rewrite E|exact (IH H)].
    Qed.
  End Two.

  Lemma put_back {T} (l : list T) k v : nth_error l k = Some v -> firstn k l ++ v :: skipn (S k) l = l.
  Proof. apply put_same. Qed.

  Theorem position_again (tr : trader A) h X h' pos valid : Forall proper h -> bars_not_used (strategy tr) X ->
    create_position tr h X = Ok (h', pos, valid) -> create_position tr h' X = Ok (h', pos, valid).
  Proof.
    intros Hh Hu H. pose proof H as H0. unfold create_position in H0. destruct (deref h X) as [Xf|] eqn:Ed; [|discriminate]. cbn [bind] in H0. destruct (create_signal tr Xf) as [sv|] eqn:Es; [|discriminate]. cbn [bind] in H0.
    destruct (create_strategy_bars tr h X) as [[h1 bars]|] eqn:Eb; [|discriminate]. cbn [bind fst snd] in H0.
    destruct (bars_ok tr h X h1 bars Hh Eb) as (a & f & f' & vol & sl & pt & Ea & Ef & Esl & Ept & Hv & Cb & Rb & Ef' & Sf & Pf & _ & Lh & Eo).
    destruct (deref_again h h1 X a f f' Ef Ef' Sf Eo Xf Ed) as (Xf' & Ed' & Hs).
    assert (Eh : h1 = h') by (destruct (concat2 _ _); [|discriminate]; cbn [bind] in H0; destruct (check_missing_columns _ _); [|discriminate]; cbn [bind] in H0; destruct (raise_if _ _); [|discriminate]; cbn [bind] in H0; congruence). subst h1.
    assert (Eb' : create_strategy_bars tr h' X = Ok (h', bars)).
    { pose proof Eb as Eb0. unfold create_strategy_bars in Eb0 |- *. rewrite Ed in Eb0. rewrite Ed', Ea in *. cbn [bind] in Eb0 |- *.
      assert (Ec : check_X_dict Xf' = check_X_dict Xf).
      { unfold check_X_dict. rewrite (mapM_Forall2 (fun kf => raise_if (negb (unique_index (index (snd kf)))) ValueError) (fun kf => raise_if (negb (unique_index (index (snd kf)))) ValueError) Xf' Xf); [reflexivity|].
        clear -Hs. induction Hs as [|x y d d' (_ & (E & _)) H IH]; [constructor|]. constructor; [now rewrite E|exact IH]. }
      rewrite Ec. destruct (check_X_dict Xf); [|discriminate]. cbn [bind] in Eb0 |- *. rewrite (proj2 (get_Ok h a f) Ef) in Eb0. rewrite (proj2 (get_Ok h' a f') Ef'). cbn [bind] in Eb0 |- *.
      rewrite <- (proj2 Sf "close"%string) by (cbn; intros [?|[?|[?|[]]]]; discriminate).
      match goal with |- bind ?c _ = _ => destruct c as [vol0|] eqn:Ev; [|discriminate] end. cbn [bind] in Eb0 |- *. rewrite Esl, Ept in *. cbn [bind] in Eb0 |- *.
      fold (put_bars f sl pt (num_expiration_bars tr) vol0) in Eb0. fold (put_bars f' sl pt (num_expiration_bars tr) vol0).
      assert (Ef'' : f' = put_bars f sl pt (num_expiration_bars tr) vol0).
      { destruct (select _ _) in Eb0; [|discriminate]. cbn [bind] in Eb0. assert (Hx : firstn a h ++ put_bars f sl pt (num_expiration_bars tr) vol0 :: skipn (S a) h = h') by congruence.
        rewrite <- Hx in Ef'. rewrite nth_error_put, Nat.eqb_refl in Ef' by (apply nth_error_Some; congruence). congruence. }
      assert (Hp : proper f) by (rewrite Forall_forall in Hh; apply Hh; exact (nth_error_In _ _ Ef)).
      assert (Eg : put_bars f' sl pt (num_expiration_bars tr) vol0 = f') by (rewrite Ef'' at 1; rewrite put_bars_again by exact Hp; now rewrite <- Ef'').
      rewrite Eg. rewrite <- Ef'' in Eb0. destruct (select f' bar_columns); [|discriminate]. cbn [bind] in Eb0 |- *.
      rewrite put_back by exact Ef'. congruence. }
    unfold create_position. rewrite Ed'. cbn [bind]. rewrite (signal_again h h' X a Eo (strategy tr) Xf Xf' Ea Ed Ed' Hs Hu tr eq_refl), Es. cbn [bind]. rewrite Eb'. cbn [bind fst snd]. exact H0.
  Qed.
End Again.
