(** Signals and positions of a strategy whose parts fit together, and the errors of one whose parts do not. *)
From Coq Require Import String.
From Verif Require Import Prelude PreludeFacts Num Series Pipe_Model Pipe_Spec Pipe_Spec3 Pipe_Proofs1 Pipe_Proofs2 Pipe_Proofs3 Pipe_Proofs4 Pipe_Proofs5 Pipe_Proofs7 Pipe_Proofs8 Pipe_Proofs10 Pipe_Proofs12 Pipe_Proofs13 Pipe_Proofs14.
Open Scope nat_scope.

Section Ready.
  Context {A : Type} {HA : Arith A}.
  Notation cell := (ext A).

  Lemma fits_proba (mm : model A) Xs r : predict_proba mm (values Xs) = Ok r -> length r = length (index Xs) -> Forall (fun x : list cell => length x = length (classes mm) /\ ~ In NaN x) r ->
    make_proba mm Xs = Ok (combine (index Xs) r).
  Proof.
    intros E L F. unfold make_proba. rewrite E. cbn [bind]. replace (forallb _ r) with true; [now apply make_series_fits|]. symmetry. apply forallb_forall. intros x Hx. rewrite Forall_forall in F. apply Nat.eqb_eq. now apply F.
  Qed.

  (** What a ready strategy predicts. *)
  Lemma predictions_shape (p : pipeline A) X P M : timely p X -> features_of p X = Ok (P, M) -> primary_ready p P -> meta_ready p P M -> ~ prediction_missing p P M ->
    exists m d pred mp prob mq q, primary_model p = Some m /\ decider p = Some d /\ predict_all p X = Ok (pred, mp) /\ predict_proba_all p X = Ok (prob, mq) /\ NoDup (map fst pred) /\
      match metalabeling_model p, mq with Some mm, Some q => (q, classes mm) | _, _ => (prob, classes m) end = (q, classes d) /\
      NoDup (map fst q) /\ Forall (fun r => length (snd r) = length (classes d)) q.
  Proof.
    intros HT Hf HP HM Hmiss. destruct (primary_ready_ok p P M HP) as (Xp & m & v & q & EXp & Np & Tp & Em & Hn & Ev & Lv & Nv & Eq & Lq & Nq).
    destruct (timely_ok p X HT) as (lead & u & El & Eu).
    assert (Hq : forall (Y : frame A) (mm : model A) (r : list (list cell)), NoDup (index Y) -> length r = length (index Y) -> Forall (fun x : list cell => length x = length (classes mm) /\ ~ In NaN x) r ->
      NoDup (map fst (combine (index Y) r)) /\ Forall (fun x => length (snd x) = length (classes mm)) (combine (index Y) r)).
    { intros Y mm r N L F. rewrite map_fst_combine by congruence. split; [exact N|]. apply Forall_forall. intros [t x] Hx. apply in_combine_r in Hx. rewrite Forall_forall in F. now apply F. }
    unfold predict_all, predict_proba_all, decider. rewrite (meta_fitted p P M HM), El. cbn [bind]. rewrite Eu. cbn [bind]. rewrite Hf. cbn [bind]. rewrite EXp, Em. cbn [bind need]. rewrite Ev. cbn [bind].
    rewrite (make_series_fits _ _ Lv), (fits_proba m Xp q Eq Lq Nq). cbn [bind].
    destruct (metalabeling_model p) as [mm|] eqn:Emm.
    - destruct (meta_ready_ok p P M mm Xp m v q Emm HM Hmiss (fun t _ => complete_dec P t) Np Tp Em Hn Ev Lv Nv Eq Lq Nq) as (Xm & w & r & EXm & Nm & Ew & Lw & Er & Lr & Nr).
      rewrite EXm. cbn [bind]. rewrite Ew. cbn [bind]. rewrite (make_series_fits _ _ Lw), (fits_proba mm Xm r Er Lr Nr). cbn [bind].
      pose proof HM as HM'. unfold meta_ready in HM'. rewrite Emm in HM'. destruct HM' as (-> & _). cbn [negb raise_if bind].
      exists m, mm. do 5 eexists. split; [reflexivity|]. split; [reflexivity|]. split; [reflexivity|]. split; [reflexivity|]. split; [rewrite map_fst_combine by congruence; exact Np|]. split; [reflexivity|].
      exact (Hq Xm mm r Nm Lr Nr).
    - exists m, m. do 5 eexists. split; [reflexivity|]. split; [reflexivity|]. split; [reflexivity|]. split; [reflexivity|]. split; [rewrite map_fst_combine by congruence; exact Np|]. split; [reflexivity|].
      exact (Hq Xp m q Np Lq Nq).
  Qed.

  Lemma join_series_accepts (a b : list (Z * cell)) : NoDup (map fst a) -> NoDup (map fst b) -> exists df, join_series a b = Ok df.
  Proof.
    intros Ha Hb. unfold join_series. set (fa := {| columns := ["side"%string]; rows := map (fun e => (fst e, [snd e])) a |}). set (fb := {| columns := ["size"%string]; rows := map (fun e => (fst e, [snd e])) b |}).
    destruct (concat2_frame fa fb) as (g & Eg & _); [| |now exists g]; unfold index; cbn [fa fb rows]; rewrite map_map; assumption.
  Qed.

  Lemma argmax_from_lt (l : list cell) : forall i best v, best < i -> argmax_from i best v l < i + length l.
  Proof. induction l as [|x l IH]; intros i best v H; cbn; [lia|]. destruct (eltb v x); (eapply Nat.lt_le_trans; [apply IH; lia|lia]). Qed.
  Lemma argmax_fits (l : list cell) : l <> [] -> exists k, argmax l = Ok k /\ k < length l.
  Proof. destruct l as [|x l]; [congruence|]. intros _. eexists. split; [reflexivity|]. apply argmax_from_lt. lia. Qed.
  Lemma class_position_found (c : cell) : forall l, (exists d, In d l /\ eeqb d c = true) -> exists k, class_position c l = Ok k /\ k < length l.
  Proof.
    induction l as [|x l IH]; [intros (d & [] & _)|]. intros (d & [->|Hd] & E); cbn.
    - rewrite E. exists 0. split; [reflexivity|lia].
    - destruct (eeqb x c); [exists 0; split; [reflexivity|lia]|]. destruct IH as (k & -> & Hk); [now exists d|]. exists (S k). split; [reflexivity|lia].
  Qed.
  Lemma class_position_none (c : cell) : forall l, (forall d, In d l -> eeqb d c = false) -> class_position c l = Err KeyError.
  Proof. induction l as [|x l IH]; intros H; [reflexivity|]. cbn. rewrite (H x (or_introl eq_refl)), IH; [reflexivity|]. intros d Hd. apply H. now right. Qed.

  Theorem signal_accepts (p : pipeline A) X P M : timely p X -> features_of p X = Ok (P, M) -> primary_ready p P -> meta_ready p P M -> ~ prediction_missing p P M -> sizer_ready p ->
    is_ok (get_side_and_size p X) = true.
  Proof.
    intros HT Hf HP HM Hmiss Hs. destruct (predictions_shape p X P M HT Hf HP HM Hmiss) as (m & d & pred & mp & prob & mq & q & Em & Ed & E1 & E2 & N1 & Eq & Nq & Lq).
    unfold get_side_and_size. rewrite E1, E2, Em. cbn [bind need fst snd]. rewrite Eq.
    match goal with |- is_ok (bind ?c _) = true => assert (HS : exists s, c = Ok s /\ NoDup (map fst s)) end.
    { unfold sizer_ready in Hs. destruct (bet_sizer p) as [sizer|].
      - destruct Hs as (Hne & Hz). specialize (Hne d Ed).
        match goal with |- exists s, bind ?c _ = _ /\ _ => assert (HR : exists rs, c = Ok rs /\ map fst rs = map fst q) end.
        { clear -Lq Hne. induction Lq as [|[t r] q L Lq IH]; [now exists []|]. destruct IH as (rs & Ers & Frs). cbn [snd] in L. cbn [mapM fst snd].
          destruct (argmax_fits r) as (k & Ek & Hk); [intros ->; cbn in L; destruct (classes d); [congruence|discriminate]|]. rewrite Ek. cbn [bind].
          rewrite L in Hk. destruct (get_lt (classes d) k Hk) as (c & Ec & _). rewrite Ec. cbn [bind]. rewrite Ers. cbn [bind]. eexists. split; [reflexivity|]. cbn. now rewrite Frs. }
        destruct HR as (rs & Ers & Frs). rewrite Ers. cbn [bind]. destruct (metalabeling_model p) as [mm|].
        + cbn [bind fst]. rewrite (aligned_values_NoDup _ pred N1) by (rewrite Frs; exact Nq). cbn [bind].
          destruct (Hz (map (fun q => (fst (fst q), (snd (fst q), Some (snd q)))) (combine rs (map (series_at pred) (map fst rs))))) as (s & Es & Fs). exists s. split; [exact Es|]. rewrite Fs, map_map. cbn [fst].
          assert (E : forall (a : list (Z * (cell * cell))) (b : list cell), length a = length b -> map (fun x => fst (fst x)) (combine a b) = map fst a).
          { clear. induction a as [|x a IH]; intros [|y b] L; try discriminate; [reflexivity|]. cbn. f_equal. apply IH. now injection L. }
          rewrite E by (now rewrite !map_length). now rewrite Frs.
        + destruct (Hz (map (fun r => (fst r, (snd r, None))) rs)) as (s & Es & Fs). exists s. split; [exact Es|]. rewrite Fs, map_map. cbn [fst]. change (NoDup (map fst rs)). now rewrite Frs.
      - destruct (metalabeling_model p) as [mm|] eqn:Emm.
        + destruct (Hs mm eq_refl) as (c & Hc & Ec). assert (Edm : d = mm) by (unfold decider in Ed; rewrite Emm in Ed; congruence). subst d.
          destruct (class_position_found (Fin a1) (classes mm)) as (k & Ek & Hk); [now exists c|]. rewrite Ek. cbn [bind].
          clear -Lq Hk Nq. assert (HR : exists rs, mapM (fun r : Z * list cell => do x <- get (snd r) k ;; Ok (fst r, x)) q = Ok rs /\ map fst rs = map fst q); [|destruct HR as (rs & E & F); exists rs; split; [exact E|now rewrite F]].
          clear Nq. induction Lq as [|[t r] q L Lq IH]; [now exists []|]. destruct IH as (rs & Ers & Frs). cbn [snd] in L. cbn [mapM fst snd].
          destruct (get_lt r k) as (x & Ex & _); [lia|]. rewrite Ex. cbn [bind]. rewrite Ers. cbn [bind]. eexists. split; [reflexivity|]. cbn. now rewrite Frs.
        + eexists. split; [reflexivity|]. rewrite map_map. exact Nq. }
    destruct HS as (s & -> & Ns). cbn [bind]. destruct (join_series_accepts pred s N1 Ns) as (df & ->). reflexivity.
  Qed.

  Theorem signal_no_class (p : pipeline A) X P M mm : timely p X -> features_of p X = Ok (P, M) -> primary_ready p P -> meta_ready p P M -> ~ prediction_missing p P M ->
    bet_sizer p = None -> metalabeling_model p = Some mm -> (forall c, In c (classes mm) -> eeqb c (Fin a1) = false) -> get_side_and_size p X = Err KeyError.
  Proof.
    intros HT Hf HP HM Hmiss Hs Emm Hc. destruct (predictions_shape p X P M HT Hf HP HM Hmiss) as (m & d & pred & mp & prob & mq & q & Em & Ed & E1 & E2 & N1 & Eq & Nq & Lq).
    assert (Edm : d = mm) by (unfold decider in Ed; rewrite Emm in Ed; congruence). subst d.
    unfold get_side_and_size. rewrite E1, E2, Em. cbn [bind need fst snd]. rewrite Eq, Hs, Emm, (class_position_none _ _ Hc). reflexivity.
  Qed.

  (** Without a prediction where the metalabeling model wants one. *)
  Theorem prediction_missing_refused (p : pipeline A) X P M : timely p X -> features_of p X = Ok (P, M) -> primary_ready p P -> meta_ready p P M -> prediction_missing p P M ->
    predict_all p X = Err ValueError /\ predict_proba_all p X = Err ValueError /\ get_side_and_size p X = Err ValueError.
  Proof.
    intros HT Hf HP HM (Hmm & Hu & Hv & t & Ht & Hnt). destruct (primary_ready_ok p P M HP) as (Xp & m & v & q & EXp & Np & Tp & Em & Hn & Ev & Lv & Nv & Eq & Lq & Nq).
    destruct (timely_ok p X HT) as (lead & u & El & Eu).
    assert (E : features_for_metalabeling p Xp (P, M) = Err ValueError).
    { unfold meta_ready in HM. destruct (metalabeling_model p) as [mm|]; [|congruence]. destruct HM as (_ & HM & _). destruct (outer_ready M HM) as (Y & EY & (F1 & F2 & F3) & W).
      unfold features_for_metalabeling. cbn [snd]. rewrite EY, Hu, Hv, Em. cbn [bind need]. rewrite Ev. cbn [bind]. rewrite (make_series_fits _ _ Lv). cbn [bind].
      destruct (add_column_frame (dropna Y) "primary_side_pred" (combine (index Xp) v) F1) as (g & Eg & _ & Ig & (Ng & Tg & Rg)); [rewrite map_fst_combine by congruence; exact Np|].
      rewrite Eg. cbn [bind]. replace (forallb complete_row (rows g)) with false; [reflexivity|]. symmetry. apply not_true_is_false. intros Hall. rewrite forallb_forall in Hall.
      assert (Hg : In t (index g)) by (rewrite Ig; now apply F2). pose proof (In_row_at g t Ng Hg) as Hr. specialize (Hall _ Hr). apply complete_row_spec in Hall. apply Hall. cbn [snd]. rewrite (Rg _ _ Hr), in_app_iff. right.
      left. unfold series_at. rewrite filter_key_none; [reflexivity|]. rewrite map_fst_combine by congruence. intros H. apply Tp in H. contradiction. }
    assert (E1 : predict_all p X = Err ValueError).
    { unfold predict_all. rewrite (meta_fitted p P M HM), El. cbn [bind]. rewrite Eu. cbn [bind]. rewrite Hf. cbn [bind]. rewrite EXp, Em. cbn [bind need]. rewrite Ev. cbn [bind].
      rewrite (make_series_fits _ _ Lv). cbn [bind]. destruct (metalabeling_model p) as [mm|]; [|congruence]. now rewrite E. }
    split; [exact E1|]. split; [|unfold get_side_and_size; now rewrite E1].
    unfold predict_proba_all. rewrite Hf. cbn [bind]. rewrite EXp, Em. cbn [bind need]. rewrite (fits_proba m Xp q Eq Lq Nq). cbn [bind].
    unfold meta_ready in HM. destruct (metalabeling_model p) as [mm|]; [|congruence]. destruct HM as (-> & _). cbn [negb raise_if bind]. now rewrite E.
  Qed.

  (** Models that are not set, or do not do what they should. *)
  Lemma primary_features_good (P M : dict (frame A)) : good_features P -> exists Xp, primary_features (P, M) = Ok Xp.
  Proof. intros HP. destruct (outer_ready P HP) as (X & EX & _). unfold primary_features. cbn [fst]. rewrite EX. now eexists. Qed.
  Lemma predict_all_primary (p : pipeline A) X P M : timely p X -> features_of p X = Ok (P, M) -> good_features P -> (forall mm, metalabeling_model p = Some mm -> fitted mm = true) ->
    exists Xp, primary_features (P, M) = Ok Xp /\
      (forall e, (do m <- need (primary_model p) ;; do v <- predict m (values Xp) ;; make_series (index Xp) v) = Err e -> predict_all p X = Err e) /\
      (forall e, (do m <- need (primary_model p) ;; make_proba m Xp) = Err e -> predict_proba_all p X = Err e).
  Proof.
    intros HT Hf HP Hm. destruct (primary_features_good P M HP) as (Xp & EXp). destruct (timely_ok p X HT) as (lead & u & El & Eu). exists Xp. split; [exact EXp|].
    assert (Efit : match metalabeling_model p with Some m => raise_if (negb (fitted m)) NotFittedError | None => Ok tt end = Ok tt) by (destruct (metalabeling_model p) as [mm|]; [rewrite (Hm mm eq_refl)|]; reflexivity).
    split; intros e He.
    - unfold predict_all. rewrite Efit, El. cbn [bind]. rewrite Eu. cbn [bind]. rewrite Hf. cbn [bind]. rewrite EXp. cbn [bind]. destruct (need (primary_model p)) as [m|]; [|cbn [bind] in *; injection He as ->; reflexivity]. cbn [bind] in *.
      destruct (predict m (values Xp)) as [v|]; cbn [bind] in *; [|injection He as ->; reflexivity]. now rewrite He.
    - unfold predict_proba_all. rewrite Hf. cbn [bind]. rewrite EXp. cbn [bind]. destruct (need (primary_model p)) as [m|]; cbn [bind] in *; [|injection He as ->; reflexivity]. now rewrite He.
  Qed.
  Theorem primary_errors (p : pipeline A) X P M : timely p X -> features_of p X = Ok (P, M) -> good_features P -> (forall mm, metalabeling_model p = Some mm -> fitted mm = true) ->
    (primary_model p = None -> predict_all p X = Err AttributeError /\ predict_proba_all p X = Err AttributeError) /\
    forall m, primary_model p = Some m ->
      (forall e, (forall rs, predict m rs = Err e) -> predict_all p X = Err e) /\
      (forall e, (forall rs, predict_proba m rs = Err e) -> predict_proba_all p X = Err e) /\
      ((forall rs, exists v, predict m rs = Ok v /\ length v <> length rs) -> predict_all p X = Err ValueError) /\
      ((forall rs, exists q, predict_proba m rs = Ok q /\ (length q <> length rs \/ exists r, In r q /\ length r <> length (classes m))) -> predict_proba_all p X = Err ValueError).
  Proof.
    intros HT Hf HP Hm. destruct (predict_all_primary p X P M HT Hf HP Hm) as (Xp & EXp & H1 & H2). split.
    - intros E. rewrite E in H1, H2. split; [now apply H1|now apply H2].
    - intros m E. rewrite E in H1, H2. cbn [need bind] in H1, H2. split; [|split; [|split]].
      + intros e He. apply H1. now rewrite He.
      + intros e He. apply H2. unfold make_proba. now rewrite He.
      + intros Hv. destruct (Hv (values Xp)) as (v & Ev & Lv). apply H1. rewrite Ev. cbn [bind]. unfold make_series. rewrite values_length in Lv. destruct (Nat.eqb_spec (length (index Xp)) (length v)) as [E'|]; [congruence|reflexivity].
      + intros Hq. destruct (Hq (values Xp)) as (q & Eq & Lq). apply H2. unfold make_proba. rewrite Eq. cbn [bind]. destruct (forallb _ q) eqn:Ea; [|reflexivity].
        destruct Lq as [Lq|(r & Hr & Lr)]; [|rewrite forallb_forall in Ea; specialize (Ea r Hr); apply Nat.eqb_eq in Ea; contradiction].
        unfold make_series. rewrite values_length in Lq. destruct (Nat.eqb_spec (length (index Xp)) (length q)) as [E'|]; [congruence|reflexivity].
  Qed.
  (** A strategy without transformers for the primary model. *)
  Theorem no_features (p : pipeline A) X M : timely p X -> features_of p X = Ok ([], M) -> (forall mm, metalabeling_model p = Some mm -> fitted mm = true) ->
    predict_all p X = Err ValueError /\ predict_proba_all p X = Err ValueError /\ get_side_and_size p X = Err ValueError.
  Proof.
    intros HT Hf Hm. destruct (timely_ok p X HT) as (lead & u & El & Eu).
    assert (E : predict_all p X = Err ValueError).
    { unfold predict_all. replace (match metalabeling_model p with Some m => raise_if (negb (fitted m)) NotFittedError | None => Ok tt end) with (Ok tt : result unit) by (destruct (metalabeling_model p) as [mm|]; [rewrite (Hm mm eq_refl)|]; reflexivity).
      cbn [bind]. rewrite El. cbn [bind]. rewrite Eu. cbn [bind]. rewrite Hf. reflexivity. }
    split; [exact E|]. split; [unfold predict_proba_all; rewrite Hf; reflexivity|unfold get_side_and_size; now rewrite E].
  Qed.

  (** * The trader *)
  Theorem create_signal_accepts (tr : trader A) Xf : Forall (fun kf => NoDup (index (snd kf))) Xf -> is_ok (get_side_and_size (strategy tr) Xf) = true -> is_ok (create_signal tr Xf) = true.
  Proof.
    intros HN Hs. unfold create_signal. assert (E : exists u, check_X_dict Xf = Ok u) by (exists tt; now apply check_X_dict_Ok). destruct E as (u & ->). cbn [bind].
    destruct (get_side_and_size (strategy tr) Xf) as [df|] eqn:E; [|discriminate]. cbn [bind]. destruct (side_and_size_shape _ _ _ E) as (C & R).
    unfold signal_valid, column. rewrite C. cbn [column_position String.eqb Ascii.eqb Bool.eqb bind].
    assert (G : forall k, k < 2 -> exists s, mapM (fun r : Z * list cell => do x <- get (snd r) k ;; Ok (fst r, x)) (rows df) = Ok s).
    { intros k Hk. assert (Hok : is_ok (mapM (fun r : Z * list cell => do x <- get (snd r) k ;; Ok (fst r, x)) (rows df)) = true).
      { apply mapM_ok_iff. intros [t r] Hr. destruct (R t r Hr) as (x & y & ->). cbn [snd]. destruct k as [|[|k]]; [reflexivity|reflexivity|lia]. }
      destruct (mapM _ _) as [s|]; [now exists s|discriminate]. }
    destruct (G 1) as (s1 & E1); [lia|]. destruct (G 0) as (s0 & E0); [lia|]. rewrite E1. cbn [bind]. rewrite E0. reflexivity.
  Qed.
  Theorem bars_accept (tr : trader A) h X Xf f sl pt : Forall proper h -> deref h X = Ok Xf -> Forall (fun kf => NoDup (index (snd kf))) Xf -> lookup Xf (align_on (strategy tr)) = Ok f ->
    stop_loss_factor tr = Some sl -> profit_taking_factor tr = Some pt -> (exists vol, volatility tr f vol) -> is_ok (create_strategy_bars tr h X) = true.
  Proof.
    intros Hh Ed HN El Esl Ept (vol & Hv). unfold create_strategy_bars. rewrite Ed. cbn [bind]. assert (E : exists u, check_X_dict Xf = Ok u) by (exists tt; now apply check_X_dict_Ok). destruct E as (u & ->). cbn [bind].
    destruct (proj1 (deref_lookup h X Xf Ed _ _) El) as (a & Ea & Ef). rewrite Ea. cbn [bind]. assert (Eg : get h a = Ok f) by now apply get_Ok. rewrite Eg. cbn [bind].
    assert (Hpf : proper f) by (apply nth_error_In in Ef; rewrite Forall_forall in Hh; now apply Hh).
    assert (HV : exists vol, (if volatility_adjusted tr then do close <- column f "close" ;; do v <- daily_vol tr (map fst close) (map snd close) ;; Ok (series_at v) else Ok (fun _ => Fin a1)) = Ok vol).
    { unfold volatility in Hv. destruct (volatility_adjusted tr); [|now eexists]. destruct Hv as (close & v & E1 & E2 & _). rewrite E1. cbn [bind]. rewrite E2. now eexists. }
    destruct HV as (vol' & ->). cbn [bind]. rewrite Esl, Ept. cbn [bind].
    fold (put_bars f sl pt (num_expiration_bars tr) vol'). destruct (put_bars_spec f sl pt (num_expiration_bars tr) vol' Hpf) as (P' & (I' & _) & C1 & C2 & C3). set (f' := put_bars f sl pt (num_expiration_bars tr) vol') in *.
    rewrite I' in C1, C2, C3. unfold bar_columns. rewrite (select3 f' _ _ _ _ _ (fun _ => num_expiration_bars tr) C1 C2 C3). reflexivity.
  Qed.
  Theorem position_accepts (tr : trader A) h X Xf P M f sl pt : Forall proper h -> deref h X = Ok Xf -> Forall (fun kf => NoDup (index (snd kf))) Xf -> timely (strategy tr) Xf ->
    features_of (strategy tr) Xf = Ok (P, M) -> primary_ready (strategy tr) P -> meta_ready (strategy tr) P M -> ~ prediction_missing (strategy tr) P M -> sizer_ready (strategy tr) ->
    lookup Xf (align_on (strategy tr)) = Ok f -> stop_loss_factor tr = Some sl -> profit_taking_factor tr = Some pt -> (exists vol, volatility tr f vol) ->
    is_ok (create_position tr h X) = true.
  Proof.
    intros Hh Ed HN HT Hf HP HM Hmiss Hs El Esl Ept Hv.
    pose proof (signal_accepts (strategy tr) Xf P M HT Hf HP HM Hmiss Hs) as H0. pose proof (create_signal_accepts tr Xf HN H0) as H1. pose proof (bars_accept tr h X Xf f sl pt Hh Ed HN El Esl Ept Hv) as H2.
    destruct (create_signal tr Xf) as [[signal valid]|] eqn:E1; [|discriminate]. destruct (create_strategy_bars tr h X) as [[h' bars]|] eqn:E2; [|discriminate].
    destruct (position_result tr h X Xf signal valid h' bars Hh Ed E1 E2) as (H & _).
    destruct (get_side_and_size (strategy tr) Xf) as [df|] eqn:E3; [|discriminate].
    assert (Ns : NoDup (index signal)).
    { destruct (signal_flag tr Xf signal valid E1) as (E3' & _). assert (df = signal) as -> by congruence.
      destruct HP as (HP & _). assert (HgM : metalabeling_model (strategy tr) <> None -> good_frames M).
      { unfold meta_ready in HM. destruct (metalabeling_model (strategy tr)); [|congruence]. intros _. destruct HM as (_ & (_ & HM & _) & _). exact HM. }
      destruct HP as (_ & HP & _). now destruct (side_and_size_ok (strategy tr) Xf P M signal Hf HP HgM E3) as (_ & N & _). }
    destruct (H Ns) as (pos & ->). reflexivity.
  Qed.
End Ready.
