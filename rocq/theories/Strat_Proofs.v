(** Strategies that are sized from probabilities. *)
From Coq Require Import Reals String Lra.
From Verif Require Import Prelude PreludeFacts Num Weights_Spec Bet_Model Bet_Spec Bet_Proofs2 Bet_Proofs3 Pipe_Model Pipe_Spec Pipe_Proofs3 Pipe_Proofs4 Pipe_Proofs5 Pipe_Proofs7 Strat_Model Strat_Spec.
Open Scope nat_scope.

(** * Where the cells of the signal come from *)
Section Cells.
  Context {A : Type} {HA : Arith A}.
  Notation cell := (ext A).
  Lemma series_row (name : string) (a : list (Z * cell)) t x : row_at {| columns := [name]; rows := map (fun e => (fst e, [snd e])) a |} t = [x] -> x = NaN \/ exists u, In (u, x) a.
  Proof.
    unfold row_at. cbn [rows columns]. destruct (filter _ _) as [|r l] eqn:E; [intros [= <-]; now left|]. intros H. right.
    assert (Hr : In r (map (fun e => (fst e, [snd e])) a)) by (assert (Hi : In r (r :: l)) by (now left); rewrite <- E in Hi; apply filter_In in Hi; tauto).
    apply in_map_iff in Hr. destruct Hr as ([u y] & <- & Hin). cbn in H. injection H as <-. now exists u.
  Qed.
  Lemma join_series_cells (a b : list (Z * cell)) df t x y : join_series a b = Ok df -> In (t, [x; y]) (rows (dropna df)) -> (exists u, In (u, x) a) /\ (exists u, In (u, y) b).
  Proof.
    unfold join_series. intros H Hin. cbn [dropna rows] in Hin. apply filter_In in Hin. destruct Hin as (Hin & Hc). unfold complete_row in Hc. cbn in Hc. rewrite andb_true_r, andb_true_iff, !negb_true_iff in Hc.
    destruct Hc as (Hx & Hy). unfold concat2 in H. destruct (same_index _ _).
    - injection H as <-. cbn [rows] in Hin. unfold beside in Hin. apply in_map_iff in Hin. destruct Hin as ([r1 r2] & E & Hin). pose proof (in_combine_l _ _ _ _ Hin) as H1. pose proof (in_combine_r _ _ _ _ Hin) as H2.
      apply in_map_iff in H1, H2. destruct H1 as ([u1 x1] & <- & H1), H2 as ([u2 y2] & <- & H2). cbn in E. injection E as _ <- <-. split; [now exists u1|now exists u2].
    - destruct (_ && _); [|discriminate]. injection H as <-. cbn [rows] in Hin. apply in_map_iff in Hin. destruct Hin as (u & E & _). injection E as _ E.
      set (fa := {| columns := ["side"%string]; rows := map (fun e => (fst e, [snd e])) a |}) in *. set (fb := {| columns := ["size"%string]; rows := map (fun e => (fst e, [snd e])) b |}) in *.
      assert (La : exists z, row_at fa u = [z]).
      { unfold row_at. destruct (filter _ (rows fa)) as [|r l] eqn:Ef; [now exists NaN|]. assert (Hr : In r (rows fa)) by (assert (Hi : In r (r :: l)) by (now left); rewrite <- Ef in Hi; apply filter_In in Hi; tauto).
        cbn [fa rows] in Hr. apply in_map_iff in Hr. destruct Hr as (e & <- & _). now exists (snd e). }
      destruct La as (z & Ez). rewrite Ez in E. cbn in E. injection E as <- E. split.
      + destruct (series_row _ a u z Ez) as [->|H0]; [discriminate Hx|exact H0].
      + destruct (series_row _ b u y E) as [->|H0]; [discriminate Hy|exact H0].
  Qed.
  Lemma predict_all_cells (p : pipeline A) X preds : predict_all p X = Ok preds -> exists m vs rs, primary_model p = Some m /\ predict m rs = Ok vs /\ forall u x, In (u, x) (fst preds) -> In x vs.
  Proof.
    unfold predict_all. intros H. match type of H with bind ?c _ = _ => destruct c as [u1|]; [|discriminate] end. cbn [bind] in H. destruct (lookup X (align_on p)) as [lead|]; [|discriminate]. cbn [bind] in H.
    match type of H with bind ?c _ = _ => destruct c as [u2|]; [|discriminate] end. cbn [bind] in H. destruct (features_of p X) as [fs|]; [|discriminate]. cbn [bind] in H. destruct (primary_features fs) as [Xp|]; [|discriminate]. cbn [bind] in H.
    destruct (primary_model p) as [m|]; [|discriminate]. cbn [need bind] in H. destruct (predict m (values Xp)) as [v|] eqn:Ev; [|discriminate]. cbn [bind] in H.
    destruct (make_series (index Xp) v) as [s|] eqn:Es; [|discriminate]. cbn [bind] in H. apply make_series_Ok in Es. destruct Es as (_ & -> & _). exists m, v, (values Xp). split; [reflexivity|]. split; [exact Ev|].
    assert (E : fst preds = combine (index Xp) v).
    { destruct (metalabeling_model p) as [mm|]; [|injection H as <-; reflexivity]. destruct (features_for_metalabeling p Xp fs) as [Xm|]; [|discriminate]. cbn [bind] in H. destruct (predict mm (values Xm)) as [v2|]; [|discriminate]. cbn [bind] in H.
      destruct (make_series (index Xm) v2) as [s2|]; [|discriminate]. injection H as <-. reflexivity. }
    intros u x Hx. rewrite E in Hx. exact (in_combine_r _ _ _ _ Hx).
  Qed.
  Lemma signal_cells (p : pipeline A) X df sizer : bet_sizer p = Some sizer -> get_side_and_size p X = Ok df ->
    exists m vs rs input sizes, primary_model p = Some m /\ predict m rs = Ok vs /\ sizer input = Ok sizes /\
      forall t x y, In (t, [x; y]) (rows df) -> In x vs /\ exists u, In (u, y) sizes.
  Proof.
    unfold get_side_and_size. intros Hz H. destruct (predict_all p X) as [preds|] eqn:Ep; [|discriminate]. cbn [bind] in H. destruct (predict_proba_all p X) as [probs|]; [|discriminate]. cbn [bind] in H.
    destruct (predict_all_cells p X preds Ep) as (m & vs & rs & Hm & Hv & Hin). rewrite Hm in H. cbn [need bind] in H. rewrite Hz in H.
    match type of H with (let (_, _) := ?c in _) = _ => destruct c as [prob cls] end.
    match type of H with bind (bind ?c _) _ = _ => destruct c as [rs'|]; [|discriminate] end. cbn [bind] in H.
    assert (Hs : exists input sizes, sizer input = Ok sizes /\ (do df <- join_series (fst preds) sizes ;; Ok (dropna df)) = Ok df).
    { destruct (metalabeling_model p) as [mm|].
      - cbn [bind] in H. destruct (aligned_values (map fst rs') (fst preds)) as [sd|]; [|discriminate]. cbn [bind] in H. match type of H with bind (sizer ?i) _ = _ => destruct (sizer i) as [sizes|] eqn:Es; [|discriminate]; exists i, sizes end. split; [exact Es|exact H].
      - match type of H with bind (sizer ?i) _ = _ => destruct (sizer i) as [sizes|] eqn:Es; [|discriminate]; exists i, sizes end. split; [exact Es|exact H]. }
    destruct Hs as (input & sizes & Hi & Hj). destruct (join_series (fst preds) sizes) as [j|] eqn:Ej; [|discriminate]. injection Hj as <-. exists m, vs, rs, input, sizes. split; [exact Hm|]. split; [exact Hv|]. split; [exact Hi|].
    intros t x y Hr. destruct (join_series_cells _ _ _ _ _ _ Ej Hr) as ((u & Hu) & Hy). split; [exact (Hin u x Hu)|exact Hy].
  Qed.
End Cells.

Theorem strat_range cdf c (p : pipeline R) X df : sized_by cdf c p -> get_side_and_size p X = Ok df ->
  forall t side size, In (t, [side; size]) (rows df) -> exists v, size = Fin v /\ (0 <= v <= 1)%R.
Proof.
  intros Hs H t side size Hin. destruct (signal_cells p X df _ Hs H) as (m & vs & rs & input & sizes & _ & _ & Hz & Hc). destruct (Hc t side size Hin) as (_ & u & Hu).
  unfold sizer_of in Hz. apply range in Hz. rewrite Forall_forall in Hz. exact (Hz _ Hu).
Qed.
Theorem strat_valid cdf c (tr : trader R) X signal valid : sized_by cdf c (strategy tr) -> (forall m, primary_model (strategy tr) = Some m -> sides_ok m) ->
  create_signal tr X = Ok (signal, valid) -> valid = true.
Proof.
  intros Hs Hm H. destruct (signal_flag tr X signal valid H) as (Hg & _ & _ & Hv). apply Hv. intros t side size Hin.
  destruct (strat_range cdf c _ X signal Hs Hg t side size Hin) as (v & -> & Hr). destruct (signal_cells _ X signal _ Hs Hg) as (m & vs & rs & input & sizes & Em & Hp & _ & Hc).
  destruct (Hc t side _ Hin) as (Hx & _). specialize (Hm m Em rs vs Hp). rewrite Forall_forall in Hm. destruct (Hm side Hx) as (d & -> & Hd).
  assert (B : (-1 <= d <= 1)%R) by (destruct Hd as [->|[->| ->]]; lra). cbn [aopp a1 a0 Arith_R]. repeat split; apply eleb_R; lra.
Qed.
Theorem strat_average cdf c (p : pipeline R) X : sized_by cdf c p -> average_active c = true -> is_ok (get_side_and_size p X) = false.
Proof.
  intros Hs Ha. destruct (get_side_and_size p X) as [df|] eqn:E; [|reflexivity]. destruct (signal_cells p X df _ Hs E) as (m & vs & rs & input & sizes & _ & _ & Hz & _). exfalso.
  unfold sizer_of, bet_transform in Hz. destruct (bet_transform_ _ _ _) as [s|] eqn:Eb; [|discriminate]. clear Hz. unfold bet_transform_ in Eb. cbn [has_prob has_pred has_side has_end b_rows andb negb raise_if bind] in Eb.
  destruct (raise_if _ ZeroDivisionError) as [u|]; [|discriminate]. cbn [bind] in Eb. rewrite Ha in Eb. match type of Eb with bind ?c _ = _ => destruct c as [l|]; [|discriminate] end. discriminate.
Qed.

(** * The formula *)
Definition fin (x : ext R) : R := match x with Fin v => v | _ => 0%R end.

Lemma bet_plain cdf c X : has_prob X = true -> has_pred X = true -> num_classes c <> 0 -> meta_labeling c = false -> average_active c = false -> discretise c = false ->
  bet_transform_ cdf c X = Ok (map (fun r => (b_time r, eabs (signed_bet cdf (num_classes c) r))) (b_rows X)).
Proof.
  intros H1 H2 Hn Hm Ha Hd. unfold bet_transform_. rewrite H1, H2, Hm, Ha, Hd. apply Nat.eqb_neq in Hn. rewrite Hn. cbn [andb negb raise_if bind]. rewrite !map_map. reflexivity.
Qed.
Lemma sizer_rows cdf c meta input sizes : cdf_ok cdf -> 2 <= num_classes c -> average_active c = false -> discretise c = false ->
  sizer_of cdf c meta input = Ok sizes ->
  Forall (fun e => exists p d, fst (snd e) = (Fin p, Fin d) /\ (0 <= p <= 1)%R /\ sign_value d) input ->
  sizes = map (fun e => (fst e, Fin (Rabs (fin (snd (fst (snd e))) * confidence cdf (num_classes c) (fin (fst (fst (snd e)))) *
                                           (if meta_labeling c then match snd (snd e) with Some s => fin s | None => 0 end else 1))))) input /\
  (meta_labeling c = true -> Forall (fun e => exists s, snd (snd e) = Some (Fin s) /\ sign_value s) input).
Proof.
  intros Hcdf Hn Ha Hd H Hg. unfold sizer_of in H. set (rows := map (fun e => {| r_time := fst e; r_prob := fin (fst (fst (snd e))); r_pred := fin (snd (fst (snd e)));
    r_side := if meta_labeling c then match snd (snd e) with Some s => fin s | None => 0%R end else 0%R; r_end := None |}) input).
  assert (Hside : meta_labeling c = true -> meta = true /\ Forall (fun e => exists s, snd (snd e) = Some (Fin s) /\ sign_value s) input).
  { intros Hm. unfold bet_transform in H. destruct (bet_transform_ cdf c _) as [s0|] eqn:Eb; [|discriminate]. clear H. unfold bet_transform_ in Eb. cbn [has_prob has_pred has_side has_end b_rows andb negb raise_if bind] in Eb.
    destruct (raise_if _ ZeroDivisionError) as [u0|]; [|discriminate]. cbn [bind] in Eb. rewrite Hm in Eb. destruct meta; [|discriminate]. split; [reflexivity|]. cbn [negb raise_if bind] in Eb.
    destruct (forallb known_side (map sizer_row input)) eqn:Ek; [|discriminate]. rewrite forallb_forall in Ek. apply Forall_forall. intros [t [[a b] o]] He. specialize (Ek _ (in_map sizer_row _ _ He)). cbn [snd].
    unfold known_side, sizer_row in Ek. cbn in Ek. destruct o as [s|]; [|discriminate]. rewrite !orb_true_iff in Ek. destruct s as [s| | |]; try (cbn in Ek; intuition discriminate).
    exists s. split; [reflexivity|]. cbn in Ek. unfold sign_value. destruct (Req_EM_T s 1); [tauto|]. destruct (Req_EM_T s (-1)); [tauto|]. destruct (Req_EM_T s 0); [tauto|]. intuition discriminate. }
  split; [|intros Hm; exact (proj2 (Hside Hm))].
  assert (Hgood : Forall good_row rows).
  { apply Forall_forall. intros r Hr. unfold rows in Hr. apply in_map_iff in Hr. destruct Hr as (e & <- & He). rewrite Forall_forall in Hg. destruct (Hg e He) as (p & d & E & Hp & Hdd). unfold good_row. cbn [r_prob r_pred r_side].
    rewrite E. cbn [fst snd fin]. split; [exact Hp|]. split; [exact Hdd|]. destruct (meta_labeling c) eqn:Em; [|unfold sign_value; tauto]. destruct (Hside eq_refl) as (_ & Hss). rewrite Forall_forall in Hss.
    destruct (Hss e He) as (s & -> & Hs). exact Hs. }
  assert (E : bet_transform cdf c {| has_prob := true; has_pred := true; has_side := meta; has_end := false; b_rows := map sizer_row input |} = bet_transform cdf c (frame_of rows)).
  { unfold bet_transform. assert (Eb : bet_transform_ cdf c {| has_prob := true; has_pred := true; has_side := meta; has_end := false; b_rows := map sizer_row input |} = bet_transform_ cdf c (frame_of rows)); [|now rewrite Eb].
    rewrite Forall_forall in Hg. destruct (meta_labeling c) eqn:Em.
    - destruct (Hside eq_refl) as (-> & Hss). rewrite Forall_forall in Hss. assert (Er : map sizer_row input = b_rows (frame_of rows)).
      { unfold frame_of, rows. cbn [b_rows]. rewrite map_map. apply map_ext_in. intros e He. destruct (Hg e He) as (p & d & E1 & _). destruct (Hss e He) as (s & E2 & _). unfold sizer_row, brow_of. cbn [r_time r_prob r_pred r_side r_end]. rewrite E1, E2. reflexivity. }
      rewrite Er. unfold bet_transform_, frame_of. cbn [has_prob has_pred has_side has_end b_rows]. rewrite Ha. reflexivity.
    - rewrite !bet_plain by (try reflexivity; try assumption; lia). f_equal. unfold frame_of, rows. cbn [b_rows]. rewrite !map_map. apply map_ext_in. intros e He. destruct (Hg e He) as (p & d & E1 & _).
      unfold signed_bet, sizer_row, brow_of. cbn [b_time b_prob b_pred r_time r_prob r_pred]. rewrite E1. reflexivity. }
  rewrite E, (Bet_Proofs3.sizes cdf Hcdf c Hn rows Hgood Ha Hd) in H. injection H as <-. unfold rows. rewrite map_map. apply map_ext. intros e. cbn [r_time]. unfold bet_of. cbn [r_pred r_prob r_side]. destruct (meta_labeling c); reflexivity.
Qed.

Lemma said_unique {A V} (method : model A -> list (list (ext A)) -> result (list V)) m X t x y : NoDup (index X) -> said method m X t x -> said method m X t y -> x = y.
Proof.
  intros Hn (pm & vs & i & E1 & E2 & E3 & E4) (pm' & vs' & i' & F1 & F2 & F3 & F4). assert (pm' = pm) by congruence. subst. assert (vs' = vs) by congruence. subst.
  assert (i' = i); [|congruence]. apply (proj1 (NoDup_nth_error (index X)) Hn); [apply nth_error_Some; congruence|congruence].
Qed.

Lemma eltb_R (a b : R) : eltb (Fin a) (Fin b) = true <-> (a < b)%R.
Proof. cbn. destruct (Rlt_dec a b); split; auto; discriminate. Qed.
Lemma argmax_from_R l : forall pre best v, first_best best v pre -> exists x, first_best (argmax_from (length pre) best (Fin v) (map Fin l)) x (pre ++ l) /\ fold_left py_max (map Fin l) (Fin v) = Fin x.
Proof.
  induction l as [|y l IH]; intros pre best v (Hb & Hg).
  - exists v. rewrite app_nil_r. split; [now split|reflexivity].
  - cbn [map argmax_from fold_left]. unfold py_max at 2. assert (E : pre ++ y :: l = (pre ++ [y]) ++ l) by (now rewrite <- app_assoc). rewrite E.
    assert (Hlen : length (pre ++ [y]) = S (length pre)) by (rewrite app_length; cbn; lia). assert (Hl : best < length pre) by (apply nth_error_Some; congruence).
    destruct (eltb (Fin v) (Fin y)) eqn:Ec; rewrite <- Hlen; apply IH; split.
    + rewrite nth_error_app2, Nat.sub_diag by lia. reflexivity.
    + apply eltb_R in Ec. intros j z Hz. destruct (Nat.lt_ge_cases j (length pre)) as [Hj|Hj].
      * rewrite nth_error_app1 in Hz by exact Hj. destruct (Hg j z Hz) as (H1 & _). split; [lra|intros; lra].
      * rewrite nth_error_app2 in Hz by exact Hj. destruct (j - length pre) as [|k] eqn:Ek; cbn in Hz; [injection Hz as <-|destruct k; discriminate]. split; [lra|lia].
    + rewrite nth_error_app1 by exact Hl. exact Hb.
    + assert (Hc : (y <= v)%R) by (destruct (Rle_or_lt y v) as [|Hlt]; [assumption|apply eltb_R in Hlt; congruence]). intros j z Hz. destruct (Nat.lt_ge_cases j (length pre)) as [Hj|Hj].
      * rewrite nth_error_app1 in Hz by exact Hj. exact (Hg j z Hz).
      * rewrite nth_error_app2 in Hz by exact Hj. destruct (j - length pre) as [|k] eqn:Ek; cbn in Hz; [injection Hz as <-|destruct k; discriminate]. split; [exact Hc|lia].
Qed.
Lemma argmax_R (l : list R) : l <> [] -> exists k x, argmax (map Fin l) = Ok k /\ row_max (map Fin l) = Fin x /\ first_best k x l.
Proof.
  destruct l as [|x l]; [easy|]. intros _. cbn [map argmax row_max]. destruct (argmax_from_R l [x] 0 x) as (m & Hm & E).
  - split; [reflexivity|]. intros [|[|j]] y Hy; cbn in Hy; [injection Hy as <-|discriminate|discriminate]. split; [lra|lia].
  - eexists. exists m. split; [reflexivity|]. split; [exact E|exact Hm].
Qed.
Lemma best_above n l k x : 0 < length l <= n -> rsum l = 1%R -> first_best k x l -> (1 / INR n <= x)%R.
Proof.
  intros (H0 & Hn) Hs (_ & Hg). assert (Hb : (rsum l <= INR (length l) * x)%R).
  { assert (Hle : forall y, In y l -> (y <= x)%R) by (intros y Hy; apply In_nth_error in Hy; destruct Hy as (j & Hj); exact (proj1 (Hg j y Hj))). clear -Hle. induction l as [|y l IH]; [cbn; lra|]. cbn [rsum fold_right length]. rewrite S_INR.
    assert (H1 : (y <= x)%R) by (apply Hle; now left). assert (H2 : (rsum l <= INR (length l) * x)%R) by (apply IH; intros z Hz; apply Hle; now right). change (fold_right Rplus 0%R l) with (rsum l). lra. }
  apply le_INR in Hn. assert (Hl : (0 < INR (length l))%R) by (now apply lt_0_INR). assert (Hx : (0 < x)%R).
  { destruct (Rlt_or_le 0 x) as [|Hx]; [assumption|]. assert ((INR (length l) * x <= 0)%R) by (rewrite <- (Rmult_0_r (INR (length l))); apply Rmult_le_compat_l; lra). lra. }
  apply (Rmult_le_reg_l (INR n)); [lra|]. replace (INR n * (1 / INR n))%R with 1%R by (field; lra). rewrite <- Hs. apply (Rle_trans _ _ _ Hb). apply Rmult_le_compat_r; lra.
Qed.
Lemma confidence_nonneg cdf n x : cdf_ok cdf -> 2 <= n -> (1 / INR n <= x <= 1)%R -> (0 <= confidence cdf n x)%R.
Proof.
  intros Hc Hn (H1 & H2). destruct (c36_confidence cdf Hc n Hn) as (_ & Hz & _ & _ & Hm). assert (H0 : (0 <= 1 / INR n)%R).
  { assert (0 < INR n)%R by (apply lt_0_INR; lia). apply Rlt_le, Rdiv_lt_0_compat; lra. }
  destruct (Rle_lt_or_eq_dec _ _ H1) as [Hlt|<-]; [|rewrite Hz; lra]. rewrite <- Hz. apply Rlt_le. now apply Hm.
Qed.

Theorem strat_formula cdf c (p : pipeline R) X P M df : cdf_ok cdf -> 2 <= num_classes c -> average_active c = false -> discretise c = false ->
  sized_by cdf c p -> (forall m, decider p = Some m -> probabilities_ok m) ->
  features_of p X = Ok (P, M) -> good_frames P -> (metalabeling_model p <> None -> good_frames M) -> get_side_and_size p X = Ok df ->
  exists m Xp Xs, decider p = Some m /\ complete_rows (map snd P) Xp /\ decider_features p (P, M) Xp Xs /\
    forall t side size, In (t, [side; size]) (rows df) -> exists probs k x d f,
      said predict (primary_model p) Xp t side /\ said predict_proba (decider p) Xs t (map Fin probs) /\
      List.length probs = List.length (classes m) /\ (0 <= x <= 1)%R /\ first_best k x probs /\ nth_error (classes m) k = Some (Fin d) /\ (if meta_labeling c then side = Fin f else f = 1%R) /\
      size = Fin (Rabs (d * confidence cdf (num_classes c) x * f)).
Proof.
  intros Hcdf Hn Ha Hd Hs Hm Hf HP HM H. destruct (side_and_size_ok p X P M df Hf HP HM H) as (_ & _ & Xp & Xs & sizes & FXp & FXs & Hr & Hsaid & Hsaid' & Hrows).
  unfold right_sizes in Hr. rewrite Hs in Hr. destruct Hr as (input & Hz & Hi & Hin). assert (Hdec : exists m, decider p = Some m).
  { destruct input as [|[t x] input]; [|destruct (Hin t x (or_introl eq_refl)) as (m & _ & _ & _ & E & _); now exists m]. unfold decider. destruct (metalabeling_model p) as [mm|]; [now exists mm|].
    unfold get_side_and_size in H. destruct (predict_all p X); [|discriminate]. cbn [bind] in H. destruct (predict_proba_all p X); [|discriminate]. cbn [bind] in H. destruct (primary_model p) as [pm|]; [now exists pm|discriminate]. }
  destruct Hdec as (m & Hdec). exists m, Xp, Xs. split; [exact Hdec|]. split; [exact FXp|]. split; [exact FXs|]. destruct (Hm m Hdec) as (Hprob & Hcls).
  assert (Hprobs : forall t v, said predict_proba (decider p) Xs t v -> exists qs, v = map Fin qs /\ qs <> [] /\ List.length qs = List.length (classes m) /\ Forall (fun q => (0 <= q <= 1)%R) qs).
  { intros t v (pm & vs & i & E1 & E2 & _ & E4). assert (pm = m) by congruence. subst pm. specialize (Hprob _ _ E2). rewrite Forall_forall in Hprob. exact (Hprob v (nth_error_In _ _ E4)). }
  assert (Hentry : forall t x, In (t, x) input -> exists probs k y d, said predict_proba (decider p) Xs t (map Fin probs) /\ List.length probs = List.length (classes m) /\ (0 <= y <= 1)%R /\ first_best k y probs /\
     nth_error (classes m) k = Some (Fin d) /\ sign_value d /\ fst x = (Fin y, Fin d) /\
     match metalabeling_model p with None => snd x = None | Some _ => exists side, snd x = Some side /\ (In t (index Xp) -> said predict (primary_model p) Xp t side) end).
  { intros t x Hx. destruct (Hin t x Hx) as (m' & v & k & cl & E & Hsv & Hk & Hc & Hfst & Hsnd). assert (m' = m) by congruence. subst m'. destruct (Hprobs t v Hsv) as (qs & -> & Hne & Hlen & Hqs).
    destruct (argmax_R qs Hne) as (k' & y & Hk' & Hy & Hb). assert (k' = k) by congruence. subst k'. rewrite Forall_forall in Hcls. destruct (Hcls cl (nth_error_In _ _ Hc)) as (d & -> & Hsd).
    exists qs, k, y, d. rewrite Hy in Hfst. split; [exact Hsv|]. split; [exact Hlen|]. split; [|auto 10]. rewrite Forall_forall in Hqs. exact (Hqs y (nth_error_In _ _ (proj1 Hb))). }
  assert (Hg : Forall (fun e => exists p d, fst (snd e) = (Fin p, Fin d) /\ (0 <= p <= 1)%R /\ sign_value d) input).
  { apply Forall_forall. intros [t x] He. destruct (Hentry t x He) as (qs & k & y & d & _ & _ & Hy & _ & _ & Hsd & E & _). exists y, d. auto. }
  destruct (sizer_rows cdf c _ input sizes Hcdf Hn Ha Hd Hz Hg) as (-> & Hsides). intros t side size Hrow. apply Hrows in Hrow. destruct Hrow as (side' & size' & [= <- <-] & _ & _ & Hsd & Hsz).
  apply in_map_iff in Hsz. destruct Hsz as ([t' x] & E & He). cbn [fst snd] in E. injection E as -> <-. destruct (Hentry t x He) as (qs & k & y & d & Hsv & Hlen & Hy & Hb & Hc & _ & Hfst & Hsnd).
  exists qs, k, y, d. rewrite Hfst. cbn [fst snd fin]. destruct (meta_labeling c) eqn:Em.
  - specialize (Hsides eq_refl). rewrite Forall_forall in Hsides. destruct (Hsides _ He) as (s & Es & _). cbn [snd] in Es. rewrite Es. cbn [fin]. exists s. repeat (split; [assumption|]). split; [|reflexivity].
    destruct (metalabeling_model p); [|congruence]. destruct Hsnd as (sd & Esd & Hsd'). assert (sd = Fin s) by congruence. subst sd. apply (said_unique predict (primary_model p) Xp t _ _ (proj1 FXp) Hsd). apply Hsd'.
    destruct Hsd as (pm & vs & i & _ & _ & E3 & _). exact (nth_error_In _ _ E3).
  - exists 1%R. repeat (split; [assumption|]). split; reflexivity.
Qed.

Theorem strat_confident cdf c m Xs t probs k x : cdf_ok cdf -> 2 <= num_classes c -> probabilities_ok m -> sum_to_one m -> List.length (classes m) <= num_classes c ->
  said predict_proba (Some m) Xs t (map Fin probs) -> first_best k x probs -> (0 <= confidence cdf (num_classes c) x <= 1)%R.
Proof.
  intros Hc Hn (Hp & _) Hs Hl (pm & vs & i & [= <-] & E2 & _ & E4) Hb. specialize (Hp _ _ E2). specialize (Hs _ _ E2). rewrite Forall_forall in Hp, Hs. pose proof (nth_error_In _ _ E4) as Hv.
  destruct (Hp _ Hv) as (qs & Eq & Hne & Hlen & Hr). specialize (Hs _ Hv probs eq_refl). assert (qs = probs).
  { clear -Eq. revert qs Eq. induction probs as [|a l IH]; intros [|b qs] E; try discriminate; [reflexivity|]. cbn in E. injection E as <- E. f_equal. now apply IH. }
  subst qs. rewrite Forall_forall in Hr. assert (Hx : (0 <= x <= 1)%R) by (exact (Hr x (nth_error_In _ _ (proj1 Hb)))). split; [|now apply (proj1 (c36_confidence cdf Hc _ Hn))].
  apply confidence_nonneg; [assumption|assumption|]. split; [|lra]. apply (best_above _ probs k x); [|exact Hs|exact Hb]. split; [destruct probs; [contradiction|cbn; lia]|lia].
Qed.
