(** Proofs about fit: C48, C49, C50. *)
From Verif Require Import PreludeFacts QSum QSumFacts Num Boot_Model Boot_Proofs Boot_Proofs2 Bag_Model Bag_Spec Bag_Proofs.

Section Proofs.
  Context {num gen est0 model : Type}.
  Variables (np : numpy gen) (est : estimator num gen est0 model).
  Notation trained := (trained model).
  Notation job := (job num).
  Notation fit := (fit num gen est0 model np est).

  (** The checks of fit before any estimator is built: the job, the estimators kept, and the number of new ones. *)
  Definition prepare (p : params) (d : data num) (self : attributes model) (h : heap) : result (job * nat * list trained * nat) :=
    let n := length (d_rows _ d) in
    do mi <- get_ind_matrix (samples_info_sets p) (price_bars p) ;;
    let mapping := index_mapping (samples_info_sets p) (ncols (fst mi)) in
    do _ <- raise_if (negb (forallb (fun t => existsb (fun e => match fst e with Some s => Z.eqb s t | None => false end) mapping) (d_index _ d))) AssertionError ;;
    let ind_mat := select_columns (fst mi) (locate mapping (d_index _ d)) in
    do _ <- raise_if (Nat.eqb n 0 || Nat.eqb (d_width _ d) 0 || negb (Nat.eqb n (length (d_labels _ d)))) ValueError ;;
    do _ <- match d_weight _ d with
            | Some a => do w <- read h a ;; raise_if (negb (Nat.eqb (length w) n)) ValueError
            | None => Ok tt
            end ;;
    let '(classes, y) := validate_y (d_labels _ d) in
    do _ <- raise_if (n_estimators p <=? 0)%Z ValueError ;;
    do ms <- check_max_samples (max_samples p) n ;;
    do mf <- check_max_features (max_features p) (d_width _ d) ;;
    do _ <- raise_if (warm_start p && oob_score p) ValueError ;;
    let old := if warm_start p then match ensemble _ self with Some ts => ts | None => [] end else [] in
    let n_more := (n_estimators p - Z.of_nat (length old))%Z in
    do _ <- raise_if (n_more <? 0)%Z ValueError ;;
    Ok ({| j_X := d_rows _ d; j_y := y; j_n_features := d_width _ d; j_ind_mat := ind_mat; j_weight := d_weight _ d;
           j_max_features := mf; j_max_samples := ms; j_bootstrap_features := bootstrap_features p; j_every := update_probs_every p |},
        length classes, old, Z.to_nat n_more).
  (** The weights on the heap. *)
  Definition given_weights (d : data num) (h : heap) : list Q :=
    match d_weight _ d with Some a => match nth_error h a with Some w => w | None => [] end | None => repeat 1%Q (length (d_rows _ d)) end.
  Definition seeds_from (p : params) (old n : nat) : list Z := map (kth_seed np (random_state p)) (seq old n).
  Definition pure_fit (p : params) (d : data num) (self : attributes model) (h : heap) : result (attributes model) :=
    do x <- prepare p d self h ;;
    let '(j, nc, old, n_more) := x in
    if Nat.eqb n_more 0 then Ok {| ensemble := Some old; n_classes := nc; oob := oob _ self |}
    else
      do new <- (do _ <- allowed est j ;; mapM (train np est j (given_weights d h)) (seeds_from p (length old) n_more)) ;;
      let ts := old ++ new in
      do o <- (if oob_score p then do s <- set_oob_score _ _ _ _ est (d_rows _ d) (j_y _ j) nc ts ;; Ok (Some s) else Ok (oob _ self)) ;;
      Ok {| ensemble := Some ts; n_classes := nc; oob := o |}.

  Lemma seeds_eq (p : params) old n : fst (draw_seeds gen np (snd (draw_seeds gen np (new_state gen np (random_state p)) old)) n) = seeds_from p old n.
  Proof.
    pose proof (draw_app np (new_state gen np (random_state p)) old n) as E. rewrite !draw_list, seq_app, map_app in E. apply app_inv_head in E.
    rewrite draw_list. rewrite <- E. reflexivity.
  Qed.
  Lemma seeds_eq0 (p : params) n : fst (draw_seeds gen np (new_state gen np (random_state p)) n) = seeds_from p 0 n.
  Proof. exact (seeds_eq p 0 n). Qed.

  Lemma locate_below samples n times : forallb (fun c => c <? n) (locate (index_mapping samples n) times) = true.
  Proof.
    apply forallb_forall. intros c H. unfold locate in H. apply in_flat_map in H. destruct H as (t & _ & H). apply in_flat_map in H.
    destruct H as ([s k] & I & H). unfold index_mapping in I. apply in_combine_r in I. apply in_seq in I. cbn [fst snd] in H.
    destruct s as [s|]; [|contradiction]. destruct (Z.eqb s t); [|contradiction]. destruct H as [<-|[]]. apply Nat.ltb_lt. lia.
  Qed.
  Lemma fit_pure p n_jobs sched d self h : 0 < n_jobs ->
    match fit p n_jobs sched d self h with
    | Ok (h', a) => pure_fit p d self h = Ok a /\ exists x, h' = h ++ x
    | Err e => pure_fit p d self h = Err e
    end.
  Proof.
    intros Hj. unfold fit, Bag_Model.fit, fit_with, pure_fit, prepare. cbv zeta.
    destruct (get_ind_matrix _ _) as [mi|e]; cbn [bind]; [|reflexivity].
    destruct (raise_if (negb (forallb _ (d_index _ d))) AssertionError) as [[]|e]; cbn [bind]; [|reflexivity]. rewrite locate_below. cbn [negb raise_if bind].
    destruct (raise_if (_ || _ || _) ValueError) as [[]|e] eqn:Ed; cbn [bind]; [|reflexivity].
    destruct (match d_weight _ d with Some a => _ | None => Ok tt end) as [[]|e] eqn:Ew; cbn [bind]; [|reflexivity].
    destruct (validate_y (d_labels _ d)) as [classes y].
    destruct (raise_if (n_estimators p <=? 0)%Z ValueError) as [[]|e] eqn:En; cbn [bind]; [|reflexivity].
    destruct (check_max_samples _ _) as [ms|e]; cbn [bind]; [|reflexivity].
    destruct (check_max_features _ _) as [mf|e]; cbn [bind]; [|reflexivity].
    destruct (raise_if (_ && _) ValueError) as [[]|e]; cbn [bind]; [|reflexivity].
    set (old := if warm_start p then match ensemble _ self with Some ts => ts | None => [] end else []).
    destruct (raise_if (n_estimators p - Z.of_nat (length old) <? 0)%Z ValueError) as [[]|e] eqn:Eo; cbn [bind]; [|reflexivity].
    assert (Hm : (0 <= n_estimators p - Z.of_nat (length old))%Z).
    { destruct (Z.ltb_spec (n_estimators p - Z.of_nat (length old)) 0); [discriminate|lia]. }
    destruct (Z.eqb_spec (n_estimators p - Z.of_nat (length old)) 0) as [E0|E0].
    - rewrite E0. cbn [Z.to_nat Nat.eqb]. split; [reflexivity|]. exists []. now rewrite app_nil_r.
    - set (n_more := Z.to_nat (n_estimators p - Z.of_nat (length old))) in *. assert (Hn : n_more <> 0) by (unfold n_more; lia).
      destruct (Nat.eqb_spec n_more 0); [easy|].
      set (j := {| j_X := d_rows _ d; j_y := y; j_n_features := _; j_ind_mat := _; j_weight := _; j_max_features := _; j_max_samples := _; j_bootstrap_features := _; j_every := _ |}).
      replace (fst (draw_seeds gen np (if warm_start p then _ else _) n_more)) with (seeds_from p (length old) n_more).
      2:{ unfold old. destruct (warm_start p); symmetry; [apply seeds_eq|apply seeds_eq0]. }
      assert (Hg : gives j h (given_weights d h)).
      { unfold gives, given_weights, j. cbn [j_weight j_X]. destruct (d_weight _ d) as [a|]; [|reflexivity]. unfold read, get in Ew. now destruct (nth_error h a). }
      assert (Hl : length (seeds_from p (length old) n_more) = n_more) by (unfold seeds_from; now rewrite map_length, seq_length).
      destruct (workers_pure np est j (given_weights d h) h (seeds_from p (length old) n_more) n_jobs sched Hg Hj) as (x & ws' & E & Er).
      { intros E. rewrite E in Hl. cbn in Hl. lia. }
      rewrite Hl in E. rewrite E. rewrite <- Er. destruct (mapM (outcome _) ws') as [rs|e]; cbn [bind]; [|reflexivity].
      destruct (if oob_score p then _ else Ok (oob _ self)) as [o|e]; cbn [bind]; [|reflexivity]. split; [reflexivity|]. now exists x.
  Qed.
  Lemma fit_visible p n_jobs sched d self h : 0 < n_jobs -> visible (fit p n_jobs sched d self h) = pure_fit p d self h.
  Proof.
    intros Hj. pose proof (fit_pure p n_jobs sched d self h Hj) as H. destruct (fit p n_jobs sched d self h) as [[h' a]|e]; cbn [visible]; [destruct H as [-> _]|rewrite H]; reflexivity.
  Qed.

  (** ** C48 *)
  Lemma c48 p d self h n_jobs sched n_jobs' sched' : 0 < n_jobs -> 0 < n_jobs' ->
    visible (fit p n_jobs sched d self h) = visible (fit p n_jobs' sched' d self h).
  Proof. intros. now rewrite !fit_visible. Qed.
  Lemma heap_kept p n_jobs sched d self h h' a : 0 < n_jobs -> fit p n_jobs sched d self h = Ok (h', a) -> forall i v, nth_error h i = Some v -> nth_error h' i = Some v.
  Proof.
    intros Hj E i v Hi. pose proof (fit_pure p n_jobs sched d self h Hj) as H. rewrite E in H. destruct H as [_ [x ->]]. rewrite nth_error_app1; auto.
    apply nth_error_Some. congruence.
  Qed.

  (** ** C49 *)
  Lemma prepare_heap p d self h h' : (forall i v, nth_error h i = Some v -> nth_error h' i = Some v) -> forall x, prepare p d self h = Ok x -> prepare p d self h' = Ok x.
  Proof.
    intros Hh x. unfold prepare. cbv zeta. destruct (get_ind_matrix _ _) as [mi|e]; cbn [bind]; [|discriminate].
    destruct (raise_if (negb (forallb _ (d_index _ d))) AssertionError) as [[]|e]; cbn [bind]; [|discriminate].
    destruct (raise_if (_ || _ || _) ValueError) as [[]|e] eqn:Ed; cbn [bind]; [|discriminate].
    destruct (d_weight _ d) as [a|]; [|auto]. unfold read, get. destruct (nth_error h a) as [w|] eqn:Ea; [|discriminate]. now rewrite (Hh _ _ Ea).
  Qed.
  Lemma given_heap d h h' p self x : (forall i v, nth_error h i = Some v -> nth_error h' i = Some v) -> prepare p d self h = Ok x -> given_weights d h' = given_weights d h.
  Proof.
    intros Hh. unfold prepare, given_weights. cbv zeta. destruct (get_ind_matrix _ _) as [mi|e]; cbn [bind]; [|discriminate].
    destruct (raise_if (negb (forallb _ (d_index _ d))) AssertionError) as [[]|e]; cbn [bind]; [|discriminate].
    destruct (raise_if (_ || _ || _) ValueError) as [[]|e] eqn:Ed; cbn [bind]; [|discriminate].
    destruct (d_weight _ d) as [a|]; [|auto]. unfold read, get. destruct (nth_error h a) as [w|] eqn:Ea; [|discriminate]. now rewrite (Hh _ _ Ea).
  Qed.
  (** prepare for another number of estimators, on another object. *)
  Lemma prepare_with p n warm n' warm' d self self' h j nc old k : prepare (with_size p n warm) d self h = Ok (j, nc, old, k) -> (0 < n')%Z ->
    warm' && oob_score p = false ->
    let old' := if warm' then match ensemble _ self' with Some ts => ts | None => [] end else [] in
    prepare (with_size p n' warm') d self' h = if (n' - Z.of_nat (length old') <? 0)%Z then Err ValueError else Ok (j, nc, old', Z.to_nat (n' - Z.of_nat (length old'))).
  Proof.
    intros H Hn' Hw. unfold prepare in *. cbv zeta in *.
    cbn [samples_info_sets price_bars n_estimators max_samples max_features warm_start oob_score bootstrap_features update_probs_every with_size] in *.
    destruct (get_ind_matrix _ _) as [mi|e]; cbn [bind] in *; [|discriminate].
    destruct (raise_if (negb (forallb _ (d_index _ d))) AssertionError) as [[]|e]; cbn [bind] in *; [|discriminate].
    destruct (raise_if (_ || _ || _) ValueError) as [[]|e] eqn:Ed; cbn [bind] in *; [|discriminate].
    destruct (match d_weight _ d with Some a => _ | None => Ok tt end) as [[]|e] eqn:Ew; cbn [bind] in *; [|discriminate].
    destruct (validate_y (d_labels _ d)) as [classes y].
    replace (n' <=? 0)%Z with false by (symmetry; apply Z.leb_gt; lia). destruct (raise_if (n <=? 0)%Z ValueError) as [[]|e] eqn:En; cbn [bind raise_if] in *; [|discriminate].
    destruct (check_max_samples _ _) as [ms|e]; cbn [bind] in *; [|discriminate].
    destruct (check_max_features _ _) as [mf|e]; cbn [bind] in *; [|discriminate].
    rewrite Hw. destruct (raise_if (warm && oob_score p) ValueError) as [[]|e] eqn:Eo; cbn [bind raise_if] in *; [|discriminate].
    destruct (raise_if (n - _ <? 0)%Z ValueError) as [[]|e]; cbn [bind] in H; [|discriminate].
    destruct (n' - _ <? 0)%Z; cbn [raise_if bind]; [reflexivity|]. congruence.
  Qed.
  Lemma pure_fresh p n warm d h a : pure_fit (with_size p n warm) d fresh h = Ok a ->
    exists j nc new, prepare (with_size p n warm) d fresh h = Ok (j, nc, [], Z.to_nat n) /\ (0 < n)%Z /\ allowed est j = Ok tt /\
      mapM (train np est j (given_weights d h)) (seeds_from p 0 (Z.to_nat n)) = Ok new /\ ensemble _ a = Some new /\ n_classes _ a = nc /\
      (oob_score p = false -> oob _ a = None).
  Proof.
    unfold pure_fit. destruct (prepare (with_size p n warm) d fresh h) as [[[[j nc] old] k]|e] eqn:Ep; [|discriminate]. cbn [bind].
    assert (Hn : (0 < n)%Z).
    { unfold prepare in Ep. cbv zeta in Ep. cbn [n_estimators with_size] in Ep.
      destruct (get_ind_matrix _ _) as [mi|e]; cbn [bind] in *; [|discriminate].
      destruct (raise_if (negb (forallb _ (d_index _ d))) AssertionError) as [[]|e]; cbn [bind] in *; [|discriminate].
      destruct (raise_if (_ || _ || _) ValueError) as [[]|e] eqn:Ed; cbn [bind] in *; [|discriminate].
      destruct (match d_weight _ d with Some a => _ | None => Ok tt end) as [[]|e] eqn:Ew; cbn [bind] in *; [|discriminate].
      destruct (validate_y (d_labels _ d)) as [classes y]. destruct (Z.leb_spec n 0); [discriminate|lia]. }
    assert (Hw : warm && oob_score p = false).
    { unfold prepare in Ep. cbv zeta in Ep. cbn [warm_start oob_score with_size] in Ep.
      destruct (get_ind_matrix _ _) as [mi|e]; cbn [bind] in *; [|discriminate].
      destruct (raise_if (negb (forallb _ (d_index _ d))) AssertionError) as [[]|e]; cbn [bind] in *; [|discriminate].
      destruct (raise_if (_ || _ || _) ValueError) as [[]|e] eqn:Ed; cbn [bind] in *; [|discriminate].
      destruct (match d_weight _ d with Some a => _ | None => Ok tt end) as [[]|e] eqn:Ew; cbn [bind] in *; [|discriminate].
      destruct (validate_y (d_labels _ d)) as [classes y]. destruct (raise_if (n_estimators _ <=? 0)%Z ValueError) as [[]|e]; cbn [bind] in *; [|discriminate].
      destruct (check_max_samples _ _) as [ms|e]; cbn [bind] in *; [|discriminate].
      destruct (check_max_features _ _) as [mf|e]; cbn [bind] in *; [|discriminate].
      now destruct (warm && oob_score p). }
    pose proof (prepare_with p n warm n warm d fresh fresh h j nc old k Ep Hn Hw) as E. cbv zeta in E.
    assert (Hold : (if warm then match @ensemble model fresh with Some ts => ts | None => [] end else []) = []) by now destruct warm.
    rewrite Hold in E. cbn [length] in E. replace (n - Z.of_nat 0)%Z with n in E by lia. replace (n <? 0)%Z with false in E by (symmetry; apply Z.ltb_ge; lia).
    rewrite Ep in E. assert (old = [] /\ k = Z.to_nat n) as [-> ->] by (split; congruence). clear E.
    destruct (Nat.eqb_spec (Z.to_nat n) 0); [lia|]. destruct (allowed est j) as [[]|e] eqn:Ea; cbn [bind]; [|discriminate].
    destruct (mapM (train np est j (given_weights d h)) _) as [new|e] eqn:Em; cbn [bind]; [|discriminate]. cbn [app oob_score with_size].
    destruct (if oob_score p then _ else Ok (oob _ fresh)) as [o|e] eqn:Eo; cbn [bind]; [|discriminate]. intros E.
    exists j, nc, new. split; [reflexivity|]. split; [exact Hn|]. split; [exact Ea|]. split; [exact Em|]. split; [now injection E as <-|]. split; [now injection E as <-|].
    intros Ho. rewrite Ho in Eo. cbn in Eo. injection E as <-. cbn [oob]. congruence.
  Qed.
  Lemma c49 p n1 n2 warm1 warm2 d h jobs sched jobs' sched' jobs'' sched'' h1 a1 :
    0 < jobs -> 0 < jobs' -> 0 < jobs'' -> oob_score p = false -> (n1 <= n2)%Z ->
    fit (with_size p n1 warm1) jobs sched d fresh h = Ok (h1, a1) ->
    visible (fit (with_size p n2 true) jobs' sched' d a1 h1) = visible (fit (with_size p n2 warm2) jobs'' sched'' d fresh h).
  Proof.
    intros Hj Hj' Hj'' Ho Hn E. rewrite !fit_visible by auto. pose proof (heap_kept _ _ _ _ _ _ _ _ Hj E) as Hh.
    pose proof (fit_visible (with_size p n1 warm1) jobs sched d fresh h Hj) as E1. rewrite E in E1. cbn [visible] in E1. symmetry in E1.
    destruct (pure_fresh _ _ _ _ _ _ E1) as (j & nc & new & Ep & Hn1 & Ha & Em & Ee & Ec & Eo). specialize (Eo Ho).
    assert (Lnew : length new = Z.to_nat n1) by (rewrite (mapM_length _ _ _ Em); unfold seeds_from; now rewrite map_length, seq_length).
    pose proof (prepare_with p n1 warm1 n2 true d fresh a1 h _ _ _ _ Ep ltac:(lia) ltac:(now rewrite Ho)) as P2. cbv zeta in P2. rewrite Ee, Lnew, Z2Nat.id in P2 by lia.
    replace (n2 - n1 <? 0)%Z with false in P2 by (symmetry; apply Z.ltb_ge; lia).
    pose proof (prepare_with p n1 warm1 n2 warm2 d fresh fresh h _ _ _ _ Ep ltac:(lia) ltac:(now rewrite Ho, Bool.andb_false_r)) as P3. cbv zeta in P3.
    replace (if warm2 then match @ensemble model fresh with Some ts => ts | None => [] end else []) with (@nil trained) in P3 by now destruct warm2.
    cbn [length] in P3. replace (n2 - Z.of_nat 0)%Z with n2 in P3 by lia. replace (n2 <? 0)%Z with false in P3 by (symmetry; apply Z.ltb_ge; lia).
    pose proof (given_heap d h h1 _ _ _ Hh Ep) as Eg.
    unfold pure_fit. rewrite (prepare_heap _ d a1 h h1 Hh _ P2), P3. cbn [bind]. rewrite Eg. cbn [oob_score with_size]. rewrite Ho, Ha. cbn [bind app].
    destruct (Nat.eqb_spec (Z.to_nat n2) 0); [lia|].
    assert (Esplit : seeds_from (with_size p n2 warm2) (length (@nil trained)) (Z.to_nat n2) = seeds_from p 0 (Z.to_nat n1) ++ seeds_from p (Z.to_nat n1) (Z.to_nat (n2 - n1))).
    { unfold seeds_from. rewrite <- map_app. cbn [length random_state with_size]. replace (Z.to_nat n2) with (Z.to_nat n1 + Z.to_nat (n2 - n1)) by lia. now rewrite seq_app. }
    rewrite Esplit, mapM_app, Em, Lnew. cbn [bind]. change (seeds_from (with_size p n2 true)) with (seeds_from p).
    destruct (Nat.eqb_spec (Z.to_nat (n2 - n1)) 0) as [E0|E0].
    - rewrite E0. cbn [seeds_from seq map mapM bind]. unfold seeds_from. cbn [seq map mapM bind]. rewrite app_nil_r, Eo. reflexivity.
    - destruct (mapM (train np est j (given_weights d h)) (seeds_from p (Z.to_nat n1) (Z.to_nat (n2 - n1)))); cbn [bind]; [|reflexivity]. now rewrite Eo.
  Qed.
  Lemma c49_fewer p n1 n2 warm1 d h jobs sched jobs' sched' h1 a1 :
    0 < jobs -> 0 < jobs' -> (n2 < n1)%Z -> fit (with_size p n1 warm1) jobs sched d fresh h = Ok (h1, a1) ->
    fit (with_size p n2 true) jobs' sched' d a1 h1 = Err ValueError.
  Proof.
    intros Hj Hj' Hn E. pose proof (heap_kept _ _ _ _ _ _ _ _ Hj E) as Hh.
    pose proof (fit_visible (with_size p n1 warm1) jobs sched d fresh h Hj) as E1. rewrite E in E1. cbn [visible] in E1. symmetry in E1.
    destruct (pure_fresh _ _ _ _ _ _ E1) as (j & nc & new & Ep & Hn1 & Ha & Em & Ee & Ec & Eo).
    assert (Lnew : length new = Z.to_nat n1) by (rewrite (mapM_length _ _ _ Em); unfold seeds_from; now rewrite map_length, seq_length).
    apply (prepare_heap _ d fresh h h1 Hh) in Ep. clear -Ep Hn Ee Lnew Hn1.
    unfold fit, Bag_Model.fit, fit_with. unfold prepare in Ep. cbv zeta in *.
    cbn [samples_info_sets price_bars n_estimators max_samples max_features warm_start oob_score bootstrap_features update_probs_every with_size] in *.
    destruct (get_ind_matrix _ _) as [mi|e]; cbn [bind] in *; [|discriminate].
    destruct (raise_if (negb (forallb _ (d_index _ d))) AssertionError) as [[]|e]; cbn [bind] in *; [|discriminate]. rewrite locate_below. cbn [negb raise_if bind].
    destruct (raise_if (_ || _ || _) ValueError) as [[]|e] eqn:Ed; cbn [bind] in *; [|discriminate].
    destruct (match d_weight _ d with Some a => _ | None => Ok tt end) as [[]|e] eqn:Ew; cbn [bind] in *; [|discriminate].
    destruct (validate_y (d_labels _ d)) as [classes y].
    destruct (n2 <=? 0)%Z; cbn [raise_if bind]; [reflexivity|]. destruct (raise_if (n1 <=? 0)%Z ValueError) as [[]|e] eqn:En; cbn [bind raise_if] in *; [|discriminate].
    destruct (check_max_samples _ _) as [ms|e]; cbn [bind] in *; [|discriminate].
    destruct (check_max_features _ _) as [mf|e]; cbn [bind] in *; [|discriminate].
    destruct (oob_score p); cbn [andb raise_if bind]; [reflexivity|]. rewrite Ee, Lnew.
    replace (n2 - Z.of_nat (Z.to_nat n1) <? 0)%Z with true; [reflexivity|]. symmetry. apply Z.ltb_lt. lia.
  Qed.
End Proofs.
