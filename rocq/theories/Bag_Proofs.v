(** Proofs about the bagging ensemble: the result does not depend on workers, schedules or the heap. *)
From Verif Require Import PreludeFacts QSum QSumFacts Num Boot_Model Boot_Proofs2 Bag_Model Bag_Spec.

Lemma mapM_app {A B} (f : A -> result B) l1 l2 :
  mapM f (l1 ++ l2) = (do a <- mapM f l1 ;; do b <- mapM f l2 ;; Ok (a ++ b)).
Proof.
  induction l1 as [|x l1 IH]; cbn [app mapM bind].
  - destruct (mapM f l2); reflexivity.
  - destruct (f x); [|reflexivity]. cbn [bind]. rewrite IH. destruct (mapM f l1); [|reflexivity]. cbn [bind]. destruct (mapM f l2); reflexivity.
Qed.
Lemma mapM_concat {A B} (f : A -> result B) ls :
  (do r <- mapM (mapM f) ls ;; Ok (concat r)) = mapM f (concat ls).
Proof.
  induction ls as [|l ls IH]; [reflexivity|]. cbn [mapM concat]. rewrite mapM_app, <- IH. destruct (mapM f l); [|reflexivity]. cbn [bind].
  destruct (mapM (mapM f) ls); reflexivity.
Qed.
Lemma mapM_map {A B C} (f : B -> result C) (g : A -> B) l : mapM f (map g l) = mapM (fun x => f (g x)) l.
Proof. induction l as [|x l IH]; [reflexivity|]. cbn [map mapM]. now rewrite IH. Qed.
Lemma mapM_ext {A B} (f g : A -> result B) l : (forall x, In x l -> f x = g x) -> mapM f l = mapM g l.
Proof. induction l as [|x l IH]; intros H; [reflexivity|]. cbn [mapM]. rewrite H by now left. rewrite IH; [reflexivity|]. intros y Hy. apply H. now right. Qed.
Lemma set_at_end {A} (l : list A) v v' : set_at (l ++ [v]) (length l) v' = l ++ [v'].
Proof. unfold set_at. rewrite firstn_app, firstn_all, Nat.sub_diag. rewrite skipn_app, skipn_all, Nat.sub_diag. cbn. now rewrite app_nil_r. Qed.

Lemma iter_succ_r {A} (f : A -> A) k x : Nat.iter (S k) f x = Nat.iter k f (f x).
Proof. revert x. induction k as [|k IH]; intros x; [reflexivity|]. change (f (Nat.iter (S k) f x) = f (Nat.iter k f (f x))). now rewrite IH. Qed.

(** ** Dividing the work *)
Lemma seq_snoc a n : seq a (S n) = seq a n ++ [a + n].
Proof. rewrite <- Nat.add_1_r, seq_app. reflexivity. Qed.
Lemma sum_parts q r k : r <= k -> list_sum (map (fun i => q + if Nat.ltb i r then 1 else 0) (seq 0 k)) = k * q + r.
Proof.
  intros H. assert (E : forall k, list_sum (map (fun i => q + if Nat.ltb i r then 1 else 0) (seq 0 k)) = k * q + Nat.min k r).
  { clear. induction k as [|k IH]; [reflexivity|]. rewrite seq_snoc, map_app, list_sum_app, IH. cbn [map list_sum fold_right Nat.add]. destruct (Nat.ltb_spec k r); lia. }
  rewrite E. lia.
Qed.
Lemma partition_sum n k : 0 < k -> list_sum (partition_estimators n k) = n.
Proof.
  intros Hk. unfold partition_estimators. destruct (Nat.eq_dec n 0) as [->|Hn]; [now rewrite Nat.min_0_r|].
  set (k' := Nat.min k n). assert (Hk' : 0 < k') by (unfold k'; lia). rewrite sum_parts by (pose proof (Nat.mod_upper_bound n k'); lia).
  pose proof (Nat.div_mod n k'). lia.
Qed.
Lemma batches_concat sizes : forall l : list Z, length l = list_sum sizes -> concat (batches l sizes) = l.
Proof.
  induction sizes as [|k r IH]; intros l H; cbn [batches concat].
  - now destruct l.
  - rewrite IH; [apply firstn_skipn|]. rewrite skipn_length. change (list_sum (k :: r)) with (k + list_sum r) in H. lia.
Qed.

Section Proofs.
  Context {num gen est0 model : Type}.
  Variables (np : numpy gen) (est : estimator num gen est0 model).
  Notation trained := (trained model).
  Notation job := (job num).
  Notation worker := (worker model).

  (** ** Random stream *)
  Lemma draw_after k : forall g, snd (draw_seeds gen np g k) = after np g k.
  Proof.
    induction k as [|k IH]; intros g; [reflexivity|]. cbn [draw_seeds after]. destruct (next_int gen np g) as [s g']. cbn [snd]. rewrite <- IH.
    now destruct (draw_seeds gen np g' k).
  Qed.
  Lemma draw_list k : forall g, fst (draw_seeds gen np g k) = map (fun i => fst (next_int gen np (after np g i))) (seq 0 k).
  Proof.
    induction k as [|k IH]; intros g; [reflexivity|]. cbn [draw_seeds seq map after]. destruct (next_int gen np g) as [s g'] eqn:E.
    pose proof (IH g') as IH'. destruct (draw_seeds gen np g' k) as [l g'']. cbn [fst] in *. rewrite IH'. f_equal.
    rewrite <- seq_shift, map_map. apply map_ext. intros i. cbn [after]. now rewrite E.
  Qed.
  Lemma after_add a b : forall g, after np g (a + b) = after np (after np g a) b.
  Proof. induction a as [|a IH]; intros g; [reflexivity|]. cbn [Nat.add after]. apply IH. Qed.
  Lemma draw_app g a b : fst (draw_seeds gen np g (a + b)) = fst (draw_seeds gen np g a) ++ fst (draw_seeds gen np (snd (draw_seeds gen np g a)) b).
  Proof.
    rewrite draw_after, !draw_list, seq_app, map_app. f_equal. replace (seq (0 + a) b) with (map (fun i => a + i) (seq 0 b)).
    - rewrite map_map. apply map_ext. intros i. now rewrite after_add.
    - clear. induction b as [|b IH]; [reflexivity|]. rewrite !seq_snoc, map_app, IH. reflexivity.
  Qed.

  (** ** One estimator, without the heap *)
  Definition train (j : job) (given : list Q) (seed : Z) : result trained :=
    let '(e, g) := make num gen est0 model est (new_state gen np seed) in
    do fi <- generate_bagging_indices gen np g (j_bootstrap_features _ j) (j_n_features _ j) (j_max_features _ j) (j_max_samples _ j) (j_ind_mat _ j) (j_every _ j) ;;
    let '(features, indices) := fi in
    if support_sample_weight _ _ _ _ est then
      let counts := bincount indices (length (j_X _ j)) in
      do _ <- raise_if (negb (Nat.eqb (length given) (length counts))) ValueError ;;
      do Xf <- take_columns _ (j_X _ j) features ;;
      do m <- fit_weighted _ _ _ _ est e Xf (j_y _ j) (map (fun p => fst p * snd p)%Q (combine given counts)) ;;
      Ok {| t_model := m; t_features := features; t_samples := indices |}
    else
      do Xi <- take_rows (j_X _ j) indices ;;
      do Xf <- take_columns _ Xi features ;;
      do yi <- take_rows (j_y _ j) indices ;;
      do m <- fit_plain _ _ _ _ est e Xf yi ;;
      Ok {| t_model := m; t_features := features; t_samples := indices |}.

  (** The weights a job finds on the heap. *)
  Definition gives (j : job) (h : heap) (given : list Q) : Prop :=
    match j_weight _ j with None => given = repeat 1%Q (length (j_X _ j)) | Some a => nth_error h a = Some given end.
  Lemma gives_app j h x given : gives j h given -> gives j (h ++ x) given.
  Proof. unfold gives. destruct (j_weight _ j); auto. intros H. rewrite nth_error_app1; auto. apply nth_error_Some. congruence. Qed.

  Lemma build_one_train j h given seed : gives j h given ->
    match build_one _ _ _ _ np est j h seed with
    | Ok (h', t) => train j given seed = Ok t /\ exists x, h' = h ++ x
    | Err e => train j given seed = Err e
    end.
  Proof.
    intros Hg. unfold build_one, train. destruct (make _ _ _ _ est (new_state _ np seed)) as [e g].
    destruct (generate_bagging_indices _ _ _ _ _ _ _ _ _) as [[features indices]|err]; cbn [bind]; [|reflexivity].
    destruct (support_sample_weight _ _ _ _ est).
    - assert (Ea : match j_weight _ j with None => Ok (alloc h (repeat 1%Q (length (j_X _ j)))) | Some w => copy h w end = Ok (h ++ [given], length h)).
      { unfold gives in Hg. destruct (j_weight _ j) as [a|]; [|now subst]. unfold copy, read, get. now rewrite Hg. }
      rewrite Ea. cbn [bind]. unfold imul, read, get. rewrite nth_error_app2, Nat.sub_diag by lia. cbn [nth_error bind].
      destruct (Nat.eqb (length given) _) eqn:El; cbn [negb raise_if bind]; [|reflexivity]. rewrite set_at_end.
      destruct (take_columns _ _ _) as [Xf|err]; cbn [bind]; [|reflexivity].
      rewrite nth_error_app2, Nat.sub_diag by lia. cbn [nth_error bind]. destruct (fit_weighted _ _ _ _ est e Xf _ _) as [m|err]; cbn [bind]; [|reflexivity].
      split; [reflexivity|]. eexists. reflexivity.
    - destruct (take_rows (j_X _ j) indices) as [Xi|err]; cbn [bind]; [|reflexivity].
      destruct (take_columns _ _ _) as [Xf|err]; cbn [bind]; [|reflexivity].
      destruct (take_rows (j_y _ j) indices) as [yi|err]; cbn [bind]; [|reflexivity].
      destruct (fit_plain _ _ _ _ est e Xf yi) as [m|err]; cbn [bind]; [|reflexivity]. split; [reflexivity|]. exists []. now rewrite app_nil_r.
  Qed.

  (** ** Workers *)
  Definition padvance (j : job) (given : list Q) (w : worker) : worker :=
    match failed _ w, todo _ w with
    | None, seed :: rest =>
        match train j given seed with
        | Ok t => {| todo := rest; built := built _ w ++ [t]; failed := None |}
        | Err e => {| todo := rest; built := built _ w; failed := Some e |}
        end
    | _, _ => w
    end.
  Lemma advance_pure j h given w : gives j h given ->
    exists x, advance _ _ _ _ np est j h w = (h ++ x, padvance j given w).
  Proof.
    intros Hg. unfold advance, padvance. destruct (failed _ w) as [e|]; [exists []; now rewrite app_nil_r|].
    destruct (todo _ w) as [|seed rest]; [exists []; now rewrite app_nil_r|]. pose proof (build_one_train j h given seed Hg) as H.
    destruct (build_one _ _ _ _ np est j h seed) as [[h' t]|e].
    - destruct H as [-> [x ->]]. now exists x.
    - rewrite H. exists []. now rewrite app_nil_r.
  Qed.
  Fixpoint pstep (j : job) (given : list Q) (ws : list worker) (i : nat) : list worker :=
    match ws, i with
    | [], _ => []
    | w :: r, 0 => padvance j given w :: r
    | w :: r, S i' => w :: pstep j given r i'
    end.
  Lemma step_pure j given ws : forall h i, gives j h given -> exists x, step _ _ _ _ np est j h ws i = (h ++ x, pstep j given ws i).
  Proof.
    induction ws as [|w ws IH]; intros h i Hg; [exists []; cbn; now rewrite app_nil_r|]. destruct i as [|i]; cbn [step pstep].
    - destruct (advance_pure j h given w Hg) as [x ->]. now exists x.
    - destruct (IH h i Hg) as [x ->]. now exists x.
  Qed.
  Definition prun j given ws sched := fold_left (fun ws i => pstep j given ws i) sched ws.
  Lemma run_pure j given sched : forall h ws, gives j h given -> exists x, run _ _ _ _ np est j h ws sched = (h ++ x, prun j given ws sched).
  Proof.
    induction sched as [|i sched IH]; intros h ws Hg; [exists []; cbn; now rewrite app_nil_r|]. unfold run, prun in *. cbn [fold_left fst snd].
    destruct (step_pure j given ws h i Hg) as [x ->]. destruct (IH (h ++ x) (pstep j given ws i) (gives_app j h x given Hg)) as [y Ey].
    exists (x ++ y). rewrite app_assoc. exact Ey.
  Qed.

  (** What a worker returns in the end. *)
  Definition final (j : job) (given : list Q) (w : worker) : result (list trained) :=
    match failed _ w with Some e => Err e | None => do r <- mapM (train j given) (todo _ w) ;; Ok (built _ w ++ r) end.
  Lemma padvance_final j given w : final j given (padvance j given w) = final j given w.
  Proof.
    unfold padvance, final. destruct (failed _ w) as [e|] eqn:Ef; [now rewrite Ef|]. destruct (todo _ w) as [|seed rest] eqn:Et; [now rewrite Ef, Et|]. cbn [mapM].
    destruct (train j given seed) as [t|e]; cbn [failed todo built bind]; [|reflexivity]. destruct (mapM (train j given) rest); [|reflexivity]. cbn [bind].
    now rewrite <- app_assoc.
  Qed.
  Definition finished (w : worker) : Prop := failed _ w <> None \/ todo _ w = [].
  Lemma finished_outcome j given w : finished w -> outcome _ w = final j given w.
  Proof.
    unfold outcome, final. intros [H|H]; destruct (failed _ w); try easy. rewrite H. cbn. now rewrite app_nil_r.
  Qed.
  Lemma iter_finished j given k : forall w, length (todo _ w) <= k -> finished (Nat.iter k (padvance j given) w).
  Proof.
    assert (Hf : forall w, finished w -> padvance j given w = w).
    { intros w [H|H]; unfold padvance; destruct (failed _ w); try easy. now rewrite H. }
    induction k as [|k IH]; intros w H; [right; change (todo _ w = []); destruct (todo _ w); cbn in H; [reflexivity|lia]|]. rewrite iter_succ_r. destruct (failed _ w) as [e|] eqn:Ef.
    - assert (Hw : finished w) by (left; congruence). rewrite (Hf w Hw). clear -Hw Hf. induction k as [|k IHk]; [exact Hw|]. change (finished (padvance j given (Nat.iter k (padvance j given) w))). now rewrite Hf.
    - apply IH. unfold padvance. rewrite Ef. destruct (todo _ w) as [|s r] eqn:Et; [rewrite Et; cbn; lia|]. destruct (train j given s); cbn [todo length] in *; lia.
  Qed.
  Lemma pstep_nth j given ws : forall i k, nth_error (pstep j given ws i) k = option_map (fun w => if Nat.eqb k i then padvance j given w else w) (nth_error ws k).
  Proof.
    induction ws as [|w ws IH]; intros i k; [now destruct i, k|]. destruct i as [|i], k as [|k]; cbn [pstep nth_error option_map Nat.eqb]; try reflexivity.
    - now destruct (nth_error ws k).
    - apply IH.
  Qed.
  Lemma iter_fin_final j given k w : final j given (Nat.iter k (padvance j given) w) = final j given w.
  Proof. induction k as [|k IH]; [reflexivity|]. change (final j given (padvance j given (Nat.iter k (padvance j given) w)) = final j given w). now rewrite padvance_final. Qed.
  Lemma prun_nth j given sched : forall ws k, nth_error (prun j given ws sched) k =
    option_map (Nat.iter (count_occ Nat.eq_dec sched k) (padvance j given)) (nth_error ws k).
  Proof.
    induction sched as [|i sched IH]; intros ws k; [cbn; now destruct (nth_error ws k)|]. unfold prun in *. cbn [fold_left]. rewrite IH, pstep_nth.
    destruct (nth_error ws k) as [w|]; [|reflexivity]. cbn [option_map]. f_equal. cbn [count_occ]. destruct (Nat.eq_dec i k) as [->|Hn].
    - rewrite Nat.eqb_refl. now rewrite iter_succ_r.
    - destruct (Nat.eqb_spec k i); [congruence|reflexivity].
  Qed.
  Lemma count_remaining_from ws : forall s k w, nth_error ws k = Some w ->
    count_occ Nat.eq_dec (flat_map (fun iw => repeat (fst iw) (length (todo model (snd iw)))) (combine (seq s (length ws)) ws)) (s + k) = length (todo _ w).
  Proof.
    assert (Hrep : forall (a b n : nat), count_occ Nat.eq_dec (repeat a n) b = if Nat.eqb a b then n else 0).
    { intros a b n. induction n as [|n IH]; cbn [repeat count_occ]; [now destruct (Nat.eqb a b)|]. destruct (Nat.eq_dec a b), (Nat.eqb_spec a b); try easy; lia. }
    assert (Hlow : forall ws s k, k < s -> count_occ Nat.eq_dec (flat_map (fun iw => repeat (fst iw) (length (todo model (snd iw)))) (combine (seq s (length ws)) ws)) k = 0).
    { clear -Hrep. induction ws as [|w ws IH]; intros s k H; [reflexivity|]. cbn [length seq combine flat_map fst snd]. rewrite count_occ_app, Hrep, IH by lia.
      destruct (Nat.eqb_spec s k); lia. }
    induction ws as [|w0 ws IH]; intros s k w H; [now destruct k|]. cbn [length seq combine flat_map fst snd]. rewrite count_occ_app, Hrep. destruct k as [|k].
    - cbn in H. injection H as ->. rewrite Nat.add_0_r, Nat.eqb_refl, Hlow by lia. lia.
    - cbn in H. replace (s + S k) with (S s + k) by lia. rewrite (IH (S s) k w H). destruct (Nat.eqb_spec s (S s + k)); lia.
  Qed.
  Lemma nth_ext' {A} (l1 l2 : list A) : (forall i, nth_error l1 i = nth_error l2 i) -> l1 = l2.
  Proof.
    revert l2. induction l1 as [|x l1 IH]; intros [|y l2] H; try easy; try (now specialize (H 0)). f_equal; [specialize (H 0); cbn in H; congruence|].
    apply IH. intros i. exact (H (S i)).
  Qed.
  Lemma finish_pure j given h ws sched : gives j h given -> exists x ws', finish _ _ _ _ np est j h ws sched = (h ++ x, ws') /\
    map (outcome _) ws' = map (final j given) ws.
  Proof.
    intros Hg. unfold finish. destruct (run_pure j given sched h ws Hg) as [x ->]. set (ws1 := prun j given ws sched).
    destruct (run_pure j given (remaining _ ws1) (h ++ x) ws1 (gives_app j h x given Hg)) as [y Ey].
    exists (x ++ y), (prun j given ws1 (remaining _ ws1)). rewrite app_assoc. split; [exact Ey|]. apply nth_ext'. intros k. rewrite !nth_error_map, prun_nth.
    assert (E1 : nth_error ws1 k = option_map (Nat.iter (count_occ Nat.eq_dec sched k) (padvance j given)) (nth_error ws k)) by apply prun_nth.
    rewrite E1. destruct (nth_error ws k) as [w|] eqn:Ew; [|reflexivity]. cbn [option_map]. f_equal.
    set (w1 := Nat.iter (count_occ Nat.eq_dec sched k) (padvance j given) w).
    rewrite (finished_outcome j given).
    - rewrite iter_fin_final. unfold w1. apply iter_fin_final.
    - apply iter_finished. unfold remaining. rewrite <- (count_remaining_from ws1 0 k w1); [reflexivity|]. exact E1.
  Qed.

  (** All the workers together. *)
  Definition allowed (j : job) : result unit :=
    raise_if (match j_weight _ j with Some _ => negb (support_sample_weight _ _ _ _ est) | None => false end) ValueError.
  Lemma workers_pure j given h seeds n_jobs sched : gives j h given -> 0 < n_jobs -> seeds <> [] ->
    exists x ws', finish _ _ _ _ np est j h (map (start_worker _ _ _ _ est j) (batches seeds (partition_estimators (length seeds) n_jobs))) sched = (h ++ x, ws') /\
      (do r <- mapM (outcome _) ws' ;; Ok (concat r)) = (do _ <- allowed j ;; mapM (train j given) seeds).
  Proof.
    intros Hg Hj Hs. set (bs := batches seeds (partition_estimators (length seeds) n_jobs)).
    destruct (finish_pure j given h (map (start_worker _ _ _ _ est j) bs) sched Hg) as (x & ws' & E & Eo). exists x, ws'. split; [exact E|].
    assert (Em : mapM (outcome _) ws' = mapM (fun b => final j given (start_worker _ _ _ _ est j b)) bs).
    { transitivity (mapM (fun r => r) (map (outcome _) ws')); [now rewrite mapM_map|]. now rewrite Eo, !mapM_map. }
    assert (Hc : concat bs = seeds) by (apply batches_concat; symmetry; now apply partition_sum).
    rewrite Em. unfold allowed. destruct (match j_weight _ j with Some _ => negb (support_sample_weight _ _ _ _ est) | None => false end) eqn:Ea; cbn [raise_if bind].
    - assert (Hf : forall b, final j given (start_worker _ _ _ _ est j b) = Err ValueError).
      { intros b. unfold final, start_worker. cbn [failed]. destruct (j_weight _ j); [|discriminate]. now destruct (support_sample_weight _ _ _ _ est). }
      destruct bs as [|b bs'] eqn:Eb; [exfalso; apply Hs; now rewrite <- Hc|]. cbn [mapM]. now rewrite Hf.
    - rewrite (mapM_ext _ (mapM (train j given))); [|].
      + rewrite mapM_concat. now rewrite Hc.
      + intros b _. unfold final, start_worker. cbn [failed todo built app]. replace (match j_weight _ j with Some _ => _ | None => _ end) with (@None exn).
        * destruct (mapM (train j given) b); reflexivity.
        * destruct (j_weight _ j); [|reflexivity]. now destruct (support_sample_weight _ _ _ _ est).
  Qed.
End Proofs.
