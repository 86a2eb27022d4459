(** Which unusable inputs are rejected, and how. *)
From Coq Require Import Reals String Lra QArith.
From Verif Require Import Prelude PreludeFacts Num Series Boot_Model Boot_Spec Boot_Proofs Boot_Proofs2 Weights_Model Bet_Model Break_Model Break_Spec TAFactory_Model Reject_Spec.
Open Scope nat_scope.

Lemma has_dup_true l : ~ NoDup l -> has_dup l = true.
Proof.
  induction l as [|x r IH]; intros H; [destruct H; constructor|]. cbn [has_dup]. apply Bool.orb_true_iff.
  destruct (memZ x r) eqn:E; [now left|right]. apply IH. intros Hr. apply H. constructor; [|exact Hr]. intros Hin. apply memZ_In in Hin. congruence.
Qed.
Lemma has_dup_false l : NoDup l -> has_dup l = false.
Proof.
  induction 1 as [|x r Hx Hr IH]; [reflexivity|]. cbn [has_dup]. rewrite IH, Bool.orb_false_r. destruct (memZ x r) eqn:E; [|reflexivity]. now apply memZ_In in E.
Qed.
Lemma uniqueness_missing X t : In (t, None) X -> average_uniqueness_transform X = Err AssertionError.
Proof.
  intros H. unfold average_uniqueness_transform. replace (existsb _ X) with true; [reflexivity|]. symmetry. apply existsb_exists. exists (t, None). now split.
Qed.
Lemma uniqueness_twice X : ~ NoDup (map fst X) -> average_uniqueness_transform X = Err AssertionError.
Proof. intros H. unfold average_uniqueness_transform. rewrite (has_dup_true _ H). now destruct (existsb _ X). Qed.
Lemma uniqueness_rest samples : NoDup (map fst samples) -> average_uniqueness_transform (map (fun s => (fst s, Some (snd s))) samples) =
  do mi <- get_ind_matrix (complete samples) (map fst samples) ;; Ok (combine (map fst samples) (calc_average_uniqueness (fst mi))).
Proof.
  intros H. unfold average_uniqueness_transform. rewrite !map_map. cbn [fst snd]. change (map (fun x => fst x) samples) with (map fst samples). rewrite (has_dup_false _ H).
  replace (existsb _ _) with false; [reflexivity|]. symmetry. apply Bool.not_true_iff_false. rewrite existsb_exists. intros (r & Hr & E). apply in_map_iff in Hr as (s & <- & _). discriminate.
Qed.

Lemma row_time_boundary samples t : row_time samples (map fst samples) t <-> boundary samples t.
Proof.
  split; [intros [H|(H & _)]; [exact H|]|now left]. apply in_map_iff in H as ([s e] & <- & H). exists s, e. auto.
Qed.
Lemma uniqueness_exactly samples : samples <> [] -> NoDup (map fst samples) ->
  let inside := exists t s e, boundary samples t /\ In (s, e) samples /\ (s <= t <= e)%Z in
  let outside := exists t s e, boundary samples t /\ In (s, e) samples /\ ~ (s <= t <= e)%Z in
  ((exists out, average_uniqueness_transform (map (fun s => (fst s, Some (snd s))) samples) = Ok out) <-> inside /\ outside) /\
  (~ (inside /\ outside) -> average_uniqueness_transform (map (fun s => (fst s, Some (snd s))) samples) = Err AssertionError).
Proof.
  intros Hn Hd inside outside. rewrite (uniqueness_rest _ Hd). destruct (c14_accept samples (map fst samples) Hn) as (H1 & H2).
  assert (E : inside /\ outside <-> (exists t s e, row_time samples (map fst samples) t /\ In (s, e) samples /\ (s <= t <= e)%Z) /\ (exists t s e, row_time samples (map fst samples) t /\ In (s, e) samples /\ ~ (s <= t <= e)%Z)).
  { split; intros ((t & s & e & A & B) & (t' & s' & e' & A' & B')); (split; [exists t, s, e|exists t', s', e']); (split; [now apply row_time_boundary|assumption]). }
  rewrite E. split.
  - rewrite <- H1. split; [intros (out & H); destruct (get_ind_matrix _ _) as [[m idx]|]; [eauto|discriminate]|]. intros (m & idx & ->). cbn [bind]. eauto.
  - intros H. rewrite (H2 H). reflexivity.
Qed.
Lemma decay_same c X e : (c <= 1)%Q -> average_uniqueness_transform X = Err e -> decay_transform c X = Err e.
Proof. intros Hc H. unfold decay_transform. apply Qle_bool_iff in Hc. rewrite Hc, H. reflexivity. Qed.

Lemma discretise_rejects step signal : ~ (0 < step < 1)%R -> discretise_signal step signal = Err AssertionError.
Proof.
  intros H. unfold discretise_signal, step_ok. destruct (Rlt_dec 0 step); [destruct (Rlt_dec step 1)|]; try reflexivity. now destruct H.
Qed.

(** The bet sizer. *)
Lemma bets_no_columns cdf c X : has_prob X = false \/ has_pred X = false -> bet_transform cdf c X = Err AssertionError.
Proof. intros H. unfold bet_transform, bet_transform_. destruct (has_prob X), (has_pred X); destruct H; try discriminate; reflexivity. Qed.
Lemma bets_no_side cdf c X : has_prob X = true -> has_pred X = true -> 1 <= num_classes c -> meta_labeling c = true -> has_side X = false -> bet_transform cdf c X = Err KeyError.
Proof. intros H1 H2 H3 H4 H5. unfold bet_transform, bet_transform_. rewrite H1, H2, H4, H5. destruct (num_classes c); [lia|reflexivity]. Qed.
Lemma bets_wrong_side cdf c X r : has_prob X = true -> has_pred X = true -> 1 <= num_classes c -> meta_labeling c = true -> has_side X = true -> In r (b_rows X) ->
  b_side r <> Fin 1%R -> b_side r <> Fin (-1)%R -> b_side r <> Fin 0%R -> bet_transform cdf c X = Err AssertionError.
Proof.
  intros H1 H2 H3 H4 H5 Hr Ha Hb Hc. unfold bet_transform, bet_transform_. rewrite H1, H2, H4, H5. destruct (num_classes c); [lia|]. cbn [andb negb raise_if bind Nat.eqb].
  destruct (forallb known_side (b_rows X)) eqn:E; [|reflexivity]. exfalso. rewrite forallb_forall in E. specialize (E r Hr). unfold known_side in E.
  assert (N : forall v, b_side r <> Fin v -> eeqb (b_side r) (Fin v) = false).
  { intros v Hv. destruct (b_side r) as [x| | |]; cbn; try reflexivity. destruct (Req_EM_T x v); [subst; now destruct Hv|reflexivity]. }
  now rewrite !N in E.
Qed.
Lemma bets_no_end cdf c X : has_prob X = true -> has_pred X = true -> 1 <= num_classes c ->
  (meta_labeling c = true -> has_side X = true /\ forall r, In r (b_rows X) -> b_side r = Fin 1%R \/ b_side r = Fin (-1)%R \/ b_side r = Fin 0%R) ->
  average_active c = true -> has_end X = false -> bet_transform cdf c X = Err KeyError.
Proof.
  intros H1 H2 H3 H4 H5 H6. unfold bet_transform, bet_transform_. rewrite H1, H2, H5, H6. destruct (num_classes c); [lia|]. cbn [andb negb raise_if bind Nat.eqb].
  destruct (meta_labeling c); [|reflexivity]. destruct (H4 eq_refl) as (-> & Hs). cbn [negb raise_if bind].
  replace (forallb known_side (b_rows X)) with true; [reflexivity|]. symmetry. apply forallb_forall. intros r Hr. unfold known_side.
  destruct (Hs r Hr) as [Hr1|[Hr1|Hr1]]; rewrite Hr1; cbn; destruct (Req_EM_T _ _); try lra; cbn; rewrite ?Bool.orb_true_r; try reflexivity; repeat destruct (Req_EM_T _ _); try lra; reflexivity.
Qed.

(** SADF. *)
Lemma log_negative ys v : In v ys -> (v < 0)%R -> log_series ys = Err AssertionError.
Proof.
  intros Hin Hv. unfold log_series. induction ys as [|x r IH]; [easy|]. cbn [mapM]. destruct (Rlt_dec 0 x) as [Hx|Hx]; [|reflexivity]. cbn [bind].
  destruct Hin as [->|Hin]; [lra|]. now rewrite (IH Hin).
Qed.
Lemma sadf_negative inv model lags m const phi s t v : In model ["sm_poly_2"; "sm_exp"; "sm_power"]%string -> In (t, v) s -> (v < 0)%R ->
  sadf_run inv model lags m const phi s = Err AssertionError.
Proof.
  intros Hm Hin Hv. assert (L : log_series (map snd s) = Err AssertionError) by (apply (log_negative _ v); [apply (in_map snd) in Hin; exact Hin|exact Hv]).
  unfold sadf_run, get_X_y. destruct Hm as [<-|[<-|[<-|[]]]]; cbn [String.eqb Ascii.eqb Bool.eqb]; now rewrite L.
Qed.

(** TA-Lib functions without a usable doc string. *)
Lemma no_doc V d name f col m kw : get_ta_func V d name = Ok f -> ta_doc V f = None -> create_transformer V d name col m kw = Err TypeError.
Proof. intros H1 H2. unfold create_transformer, get_args_kwargs. rewrite H1. cbn [bind]. now rewrite H2. Qed.

Lemma uniqueness_errors X :
  (forall t, In (t, None) X -> average_uniqueness_transform X = Err AssertionError) /\
  (~ NoDup (map fst X) -> average_uniqueness_transform X = Err AssertionError) /\
  (X = [] -> average_uniqueness_transform X = Err ValueError) /\
  (forall samples, X = map (fun s => (fst s, Some (snd s))) samples -> samples <> [] -> NoDup (map fst samples) ->
    let inside := exists t s e, boundary samples t /\ In (s, e) samples /\ (s <= t <= e)%Z in
    let outside := exists t s e, boundary samples t /\ In (s, e) samples /\ ~ (s <= t <= e)%Z in
    ((exists out, average_uniqueness_transform X = Ok out) <-> inside /\ outside) /\
    (~ (inside /\ outside) -> average_uniqueness_transform X = Err AssertionError)).
Proof.
  split; [intros t; apply uniqueness_missing|]. split; [apply uniqueness_twice|]. split; [intros ->; reflexivity|].
  intros samples -> Hn Hd. now apply uniqueness_exactly.
Qed.
Lemma bet_errors cdf c X :
  (has_prob X = false \/ has_pred X = false -> bet_transform cdf c X = Err AssertionError) /\
  (has_prob X = true -> has_pred X = true -> 1 <= num_classes c ->
    (meta_labeling c = true -> has_side X = false -> bet_transform cdf c X = Err KeyError) /\
    (meta_labeling c = true -> has_side X = true -> forall r, In r (b_rows X) -> b_side r <> Fin 1%R -> b_side r <> Fin (-1)%R -> b_side r <> Fin 0%R ->
      bet_transform cdf c X = Err AssertionError) /\
    ((meta_labeling c = true -> has_side X = true /\ forall r, In r (b_rows X) -> b_side r = Fin 1%R \/ b_side r = Fin (-1)%R \/ b_side r = Fin 0%R) ->
      average_active c = true -> has_end X = false -> bet_transform cdf c X = Err KeyError)).
Proof.
  split; [apply bets_no_columns|]. intros H1 H2 H3. split; [intros; now apply bets_no_side|]. split; [intros H4 H5 r; intros; eapply bets_wrong_side; eauto|]. intros; now apply bets_no_end.
Qed.
