(** Proofs about the parameters of fit and about what the estimators are trained on: C50, C52, C67. *)
From Verif Require Import PreludeFacts QSum QSumFacts Num Boot_Model Boot_Spec Boot_Proofs Boot_Proofs2 Bag_Model Bag_Spec Bag_Proofs Bag_Proofs2.
From Coq Require Import Lqa.

(** ** Sizes *)
Lemma quot_floor q k : 1 <= k -> (Z.quot (Qnum q) (Zpos (Qden q)) = Z.of_nat k <-> floor q k).
Proof.
  intros Hk. unfold floor, Qn, Qle, Qlt, Qplus, inject_Z. destruct q as [a b]. cbn [Qnum Qden]. rewrite !Pos.mul_1_l, !Z.mul_1_r. cbn [Z.mul Pos.mul].
  assert (Hb : (0 < Zpos b)%Z) by lia. destruct (Z.le_gt_cases 0 a) as [Ha|Ha].
  - rewrite Z.quot_div_nonneg by lia. pose proof (Z.div_mod a (Zpos b) ltac:(lia)) as E. pose proof (Z.mod_pos_bound a (Zpos b) Hb) as B. split.
    + intros Eq. rewrite Eq in E. nia.
    + intros [H1 H2]. symmetry. apply (Z.div_unique_pos a (Zpos b) (Z.of_nat k) (a - Zpos b * Z.of_nat k)); nia.
  - split.
    + intros Eq. exfalso. assert (Z.quot a (Zpos b) <= 0)%Z by (apply Z.quot_le_upper_bound; lia). lia.
    + intros [H1 H2]. nia.
Qed.
Lemma check_samples_spec p n k : 0 < n -> (check_max_samples p n = Ok k <-> sample_size p n k).
Proof.
  intros Hn. unfold check_max_samples, sample_size.
  assert (Hnat : forall z, (if (0 <? z)%Z && (z <=? Z.of_nat n)%Z then Ok (Z.to_nat z) else Err ValueError) = Ok k <-> (1 <= k <= n) /\ z = Z.of_nat k).
  { intros z. destruct (Z.ltb_spec 0 z), (Z.leb_spec z (Z.of_nat n)); cbn [andb]; split; try discriminate; try lia.
    - intros E. assert (Z.to_nat z = k) as <- by congruence. lia.
    - intros [Hk ->]. f_equal. lia. }
  destruct p as [z|[q| | |]|]; cbn [bind].
  - apply Hnat.
  - change (times_n (Fin q) n) with (Fin (rounded (q * Qn n))). cbn [int_of bind]. rewrite Hnat. split; intros [Hk E]; (split; [exact Hk|]).
    + apply quot_floor; [lia|exact E].
    + apply quot_floor; [lia|exact E].
  - destruct (times_n PInf n) eqn:E; cbn [int_of bind]; split; try discriminate; try easy. intros _. exfalso.
    unfold times_n, emul in E. cbn in E. now destruct (asign _) in E.
  - destruct (times_n NInf n) eqn:E; cbn [int_of bind]; split; try discriminate; try easy. intros _. exfalso.
    unfold times_n, emul in E. cbn in E. now destruct (asign _) in E.
  - split; [discriminate|easy].
  - split; [discriminate|easy].
Qed.

Lemma altb_Q (x y : Q) : altb x y = true <-> (x < y)%Q.
Proof. cbn. rewrite Bool.negb_true_iff. split; intros H; [apply Qnot_le_lt; intros Hle; apply Qle_bool_iff in Hle; congruence|]. apply Bool.not_true_iff_false. intros Hle. apply Qle_bool_iff in Hle. lra. Qed.
Lemma eleb_Q (x y : Q) : eleb (Fin x) (Fin y) = true <-> (x <= y)%Q.
Proof.
  unfold eleb. rewrite Bool.orb_true_iff. cbn [eltb]. rewrite altb_Q. unfold eeqb. cbn. rewrite Qeq_bool_iff. split; [intros [H|H]; lra|].
  intros H. destruct (Qlt_le_dec x y); [now left|right; lra].
Qed.
Lemma floor_exists q : (0 <= q)%Q -> exists f, floor q f /\ Z.quot (Qnum q) (Zpos (Qden q)) = Z.of_nat f.
Proof.
  intros H. destruct q as [a b]. unfold Qle in H. cbn in H. rewrite Z.mul_1_r in H. set (z := Z.quot a (Zpos b)).
  assert (Hz : (0 <= z)%Z) by (apply Z.quot_pos; lia). exists (Z.to_nat z). rewrite Z2Nat.id by lia. split; [|reflexivity].
  unfold floor, Qn, Qle, Qlt, Qplus, inject_Z. cbn [Qnum Qden]. rewrite Z2Nat.id by lia. rewrite !Pos.mul_1_l, !Z.mul_1_r.
  unfold z in *. rewrite Z.quot_div_nonneg in * by lia. pose proof (Z.div_mod a (Zpos b) ltac:(lia)). pose proof (Z.mod_pos_bound a (Zpos b) ltac:(lia)). nia.
Qed.
Lemma floor_unique q f g : floor q f -> floor q g -> f = g.
Proof.
  unfold floor, Qn, Qle, Qlt, Qplus, inject_Z. destruct q as [a b]. cbn [Qnum Qden]. rewrite !Pos.mul_1_l, !Z.mul_1_r. intros [H1 H2] [H3 H4].
  assert (Z.of_nat f < Z.of_nat g + 1)%Z by nia. assert (Z.of_nat g < Z.of_nat f + 1)%Z by nia. lia.
Qed.
Lemma check_features_spec p n k : 0 < n -> (check_max_features p n = Ok k <-> feature_size p n k).
Proof.
  intros Hn. unfold check_max_features, feature_size.
  assert (Hq : forall q, (if eltb (Fin 0%Q) (Fin q) && eleb (Fin q) (Fin (Qn n)) then do k0 <- int_of (Fin q) ;; Ok (Nat.max 1 (Z.to_nat k0)) else Err ValueError) = Ok k <->
    (0 < q /\ q <= Qn n)%Q /\ exists f, floor q f /\ k = Nat.max 1 f).
  { intros q. destruct (eltb (Fin 0%Q) (Fin q) && eleb (Fin q) (Fin (Qn n))) eqn:E.
    - apply Bool.andb_true_iff in E as [E1 E2]. apply altb_Q in E1. apply eleb_Q in E2. destruct (floor_exists q ltac:(lra)) as (f & Hf & Ef).
      cbn [int_of bind]. rewrite Ef, Nat2Z.id. split.
      + intros E. split; [easy|]. exists f. split; [exact Hf|congruence].
      + intros [_ (g & Hg & ->)]. now rewrite (floor_unique q f g Hf Hg).
    - split; [discriminate|]. intros [[H1 H2] _]. exfalso. apply Bool.andb_false_iff in E as [E|E]; apply Bool.not_true_iff_false in E; apply E; [now apply altb_Q|now apply eleb_Q]. }
  destruct p as [z|x|]; cbn [bind].
  - rewrite Hq. unfold floor, Qn, Qle, Qlt, Qplus, inject_Z. cbn [Qnum Qden]. rewrite ?Z.mul_1_r. change (Zpos (1 * 1)) with 1%Z. rewrite ?Z.mul_1_r. split.
    + intros [[H1 H2] (f & [H3 H4] & ->)]. lia.
    + intros [-> H]. split; [lia|]. exists k. lia.
  - destruct x as [q| | |].
    + change (times_n (Fin q) n) with (Fin (rounded (q * Qn n))). apply Hq.
    + split; [|easy]. unfold times_n, emul. cbn [esign asign]. assert (Ea : asign (Qn n) = Gt).
      { unfold asign. replace (altb (Qn n) a0) with false by (symmetry; apply Bool.not_true_iff_false; rewrite altb_Q; cbn; pose proof (Qn_pos n Hn); lra).
        replace (altb a0 (Qn n)) with true; [reflexivity|]. symmetry. apply altb_Q. now apply Qn_pos. }
      cbn in *. rewrite ?Ea. cbn. discriminate.
    + split; [|easy]. unfold times_n, emul. cbn [esign asign]. assert (Ea : asign (Qn n) = Gt).
      { unfold asign. replace (altb (Qn n) a0) with false by (symmetry; apply Bool.not_true_iff_false; rewrite altb_Q; cbn; pose proof (Qn_pos n Hn); lra).
        replace (altb a0 (Qn n)) with true; [reflexivity|]. symmetry. apply altb_Q. now apply Qn_pos. }
      cbn in *. rewrite ?Ea. cbn. discriminate.
    + split; [discriminate|easy].
  - split; [discriminate|easy].
Qed.

(** ** The label spans of the rows of X *)
Lemma locate_one (starts : list Z) : NoDup starts -> forall s t p, nth_error starts p = Some t ->
  flat_map (fun e : option Z * nat => match fst e with Some x => if Z.eqb x t then [snd e] else [] | None => [] end) (combine (map Some starts) (seq s (length starts))) = [s + p].
Proof.
  assert (Hnone : forall starts s t, ~ In t starts ->
    flat_map (fun e : option Z * nat => match fst e with Some x => if Z.eqb x t then [snd e] else [] | None => [] end) (combine (map Some starts) (seq s (length starts))) = []).
  { clear. induction starts as [|x l IH]; intros s t H; [reflexivity|]. cbn [map length seq combine flat_map fst snd]. destruct (Z.eqb_spec x t) as [->|]; [exfalso; apply H; now left|].
    cbn [app]. apply IH. intros Hi. apply H. now right. }
  induction 1 as [|x l Hx H IH]; intros s t p Hp; [now destruct p|]. cbn [map length seq combine flat_map fst snd]. destruct p as [|p]; cbn in Hp.
  - injection Hp as ->. rewrite Z.eqb_refl, Hnone by auto. cbn. f_equal. lia.
  - destruct (Z.eqb_spec x t) as [->|_]; [exfalso; apply Hx; eapply nth_error_In; eauto|]. rewrite (IH (S s) t p Hp). cbn. f_equal. lia.
Qed.
Lemma locate_all (starts times : list Z) : NoDup starts -> (forall t, In t times -> In t starts) ->
  Forall2 (fun t p => nth_error starts p = Some t) times (locate (combine (map Some starts) (seq 0 (length starts))) times).
Proof.
  intros Hn H. unfold locate. induction times as [|t times IH]; [constructor|]. cbn [flat_map].
  destruct (In_nth_error starts t (H t (or_introl eq_refl))) as [p Hp]. rewrite (locate_one starts Hn 0 t p Hp). cbn [app Nat.add]. constructor; [exact Hp|].
  apply IH. intros u Hu. apply H. now right.
Qed.
Lemma covered_spec (samples : list (Z * Z)) n times : n = length samples ->
  forallb (fun t => existsb (fun e : option Z * nat => match fst e with Some s => Z.eqb s t | None => false end) (index_mapping (complete samples) n)) times = true <->
  (forall t, In t times -> In t (map fst samples)).
Proof.
  intros ->. unfold index_mapping, complete. rewrite map_map. cbn [fst].
  assert (Hc : forall t s l, existsb (fun e : option Z * nat => match fst e with Some s => Z.eqb s t | None => false end) (combine (map (fun x : Z * Z => Some (fst x)) l) (seq s (length l))) = true <-> In t (map fst l)).
  { intros t s l. revert s. induction l as [|x l IH]; intros s; [easy|]. cbn [map length seq combine existsb fst]. rewrite Bool.orb_true_iff, IH, Z.eqb_eq. cbn. tauto. }
  rewrite forallb_forall. split; intros H t Ht; [apply (Hc t 0 samples)|apply Hc]; auto.
Qed.

(** ** What an estimator is trained on *)
Lemma bincount_nth indices n i : i < n -> nth_error (bincount indices n) i = Some (Qn (count_occ Nat.eq_dec indices i)).
Proof. intros H. unfold bincount. rewrite nth_error_map. assert (E : nth_error (seq 0 (Nat.max n (fold_right Nat.max 0 (map S indices)))) i = Some i) by (apply nth_error_seq; lia). now rewrite E. Qed.
Lemma bincount_length_lt indices n : Forall (fun i => i < n) indices -> length (bincount indices n) = n.
Proof.
  intros H. unfold bincount. rewrite map_length, seq_length. enough (fold_right Nat.max 0 (map S indices) <= n) by lia. induction H as [|x l Hx _ IH]; cbn [map fold_right]; lia.
Qed.
Lemma take_rows_spec {A} (X : list A) indices Y : take_rows X indices = Ok Y <-> at_positions X indices Y.
Proof.
  unfold take_rows, at_positions. revert Y. induction indices as [|i l IH]; intros Y; cbn [mapM].
  - split; [intros [= <-]; constructor|]. intros H. now inversion H.
  - split.
    + destruct (get X i) as [x|] eqn:E; [|discriminate]. cbn [bind]. destruct (mapM (get X) l) as [xs|] eqn:El; [|discriminate]. cbn [bind]. intros [= <-].
      constructor; [now apply get_Ok|]. now apply IH.
    + intros H. inversion H as [|? x ? xs Hx Hxs]; subst. apply get_Ok in Hx. rewrite Hx. cbn [bind]. apply IH in Hxs. now rewrite Hxs.
Qed.
Lemma take_columns_spec {num} (X : list (list num)) features Y : take_columns num X features = Ok Y <-> columns_of X features Y.
Proof.
  unfold take_columns, columns_of. revert Y. induction X as [|row X IH]; intros Y; cbn [mapM].
  - split; [intros [= <-]; constructor|]. intros H. now inversion H.
  - change (mapM (get row) features) with (take_rows row features). split.
    + destruct (take_rows row features) as [x|] eqn:E; [|discriminate]. cbn [bind]. destruct (mapM _ X) as [xs|] eqn:El; [|discriminate]. cbn [bind]. intros [= <-].
      constructor; [now apply take_rows_spec|]. now apply IH.
    + intros H. inversion H as [|? x ? xs Hx Hxs]; subst. apply take_rows_spec in Hx. rewrite Hx. cbn [bind]. apply IH in Hxs. now rewrite Hxs.
Qed.

Lemma position_In' x l : In x l -> exists p, position x l = Some p /\ nth_error l p = Some x.
Proof. intros H. destruct (position_In x l H) as [p Hp]. exists p. split; [exact Hp|]. now apply position_Some. Qed.
Lemma validate_codes labels classes y : validate_y labels = (classes, y) -> codes_of labels y /\ length y = length labels /\ length classes = length (np_uniqueZ labels).
Proof.
  unfold validate_y. intros [= <- <-]. split; [|split; [apply map_length|reflexivity]]. exists (np_uniqueZ labels). split; [apply np_uniqueZ_inc|]. split; [intros c; apply np_uniqueZ_In|].
  assert (H : forall l, (forall x, In x l -> In x labels) -> Forall2 (fun lab c => nth_error (np_uniqueZ labels) c = Some lab) l (map (code (np_uniqueZ labels)) l)).
  { induction l as [|x l IH]; intros Hl; [constructor|]. cbn [map]. constructor.
    - unfold code. destruct (position_In' x (np_uniqueZ labels)) as (p & -> & Hp); [apply np_uniqueZ_In; apply Hl; now left|exact Hp].
    - apply IH. intros z Hz. apply Hl. now right. }
  apply H. auto.
Qed.

Section Proofs.
  Context {num gen est0 model : Type}.
  Variables (np : numpy gen) (est : estimator num gen est0 model).
  Notation trained := (trained model).
  Notation job := (job num).
  Notation fit := (fit num gen est0 model np est).

  Lemma train_comes (j : job) given seed t : length given = length (j_X _ j) -> train np est j given seed = Ok t ->
    comes_from np est (j_X _ j) (j_n_features _ j) (j_y _ j) given (j_bootstrap_features _ j) (j_max_features _ j) (j_max_samples _ j) (j_ind_mat _ j) (j_every _ j) seed t.
  Proof.
    intros Hl. unfold train, comes_from. destruct (make _ _ _ _ est (new_state _ np seed)) as [e g] eqn:Em.
    unfold generate_bagging_indices, generate_random_features.
    destruct (if j_bootstrap_features _ j then _ else _) as [features g'] eqn:Ef.
    destruct (seq_bootstrap _ _ _ _) as [[samples lg]|err] eqn:Es; cbn [bind fst]; [|discriminate].
    intros H. exists e, g, features, g', samples, lg.
    split; [reflexivity|]. split; [exact Ef|]. split; [exact Es|].
    destruct (support_sample_weight _ _ _ _ est) eqn:Esup.
    - destruct (Nat.eqb (length given) (length (bincount samples (length (j_X _ j))))) eqn:El; cbn [negb raise_if bind] in H; [|discriminate]. apply Nat.eqb_eq in El.
      destruct (take_columns _ _ _) as [Xf|err] eqn:Ec; cbn [bind] in H; [|discriminate]. apply take_columns_spec in Ec.
      destruct (fit_weighted _ _ _ _ est e Xf _ _) as [m|err] eqn:Efit; cbn [bind] in H; [|discriminate]. injection H as <-. cbn [t_features t_samples t_model].
      split; [reflexivity|]. split; [reflexivity|]. eexists Xf, _. split; [exact Ec|]. split; [|split; [|exact Efit]].
      + rewrite map_length, combine_length. lia.
      + intros i w Hw. rewrite nth_error_map. assert (Hi : i < length (j_X _ j)) by (rewrite <- Hl; apply nth_error_Some; congruence).
        rewrite (nth_error_combine given _ i w (Qn (count_occ Nat.eq_dec samples i)) Hw (bincount_nth samples _ i Hi)). reflexivity.
    - destruct (take_rows (j_X _ j) samples) as [Xi|err] eqn:Ei; cbn [bind] in H; [|discriminate].
      destruct (take_columns _ _ _) as [Xf|err] eqn:Ec; cbn [bind] in H; [|discriminate].
      destruct (take_rows (j_y _ j) samples) as [yi|err] eqn:Ey; cbn [bind] in H; [|discriminate].
      destruct (fit_plain _ _ _ _ est e Xf yi) as [m|err] eqn:Efit; cbn [bind] in H; [|discriminate]. injection H as <-. cbn [t_features t_samples t_model].
      split; [reflexivity|]. split; [reflexivity|]. exists Xi, Xf, yi. split; [now apply take_rows_spec|]. split; [now apply take_columns_spec|]. split; [now apply take_rows_spec|exact Efit].
  Qed.
End Proofs.
