(** Alignment: the methods, the windows, acceptance, no look-ahead. *)
From Coq Require Import String QArith Lqa.
From Verif Require Import Prelude PreludeFacts Num QSum QSumFacts Pipe_Model Pipe_Spec Pipe_Proofs1.
Open Scope nat_scope.

(** * The methods over the rational numbers *)
Lemma esum_nan_acc (l : list (ext Q)) : fold_left eadd l NaN = NaN.
Proof. induction l; cbn; auto. Qed.
Lemma esum_In_nan (l : list (ext Q)) : forall a, In NaN l -> fold_left eadd l a = NaN.
Proof.
  induction l as [|x l IH]; intros a []; cbn.
  - subst. destruct a; cbn; apply esum_nan_acc.
  - now apply IH.
Qed.
Lemma esum_fin qs : forall a : Q, exists s, fold_left eadd (map Fin qs) (Fin a) = Fin s /\ (s == a + qsum qs)%Q.
Proof.
  induction qs as [|q qs IH]; intros a; cbn [map fold_left].
  - exists a. split; [reflexivity|]. cbn. lra.
  - cbn [eadd aadd Arith_Q]. destruct (IH (a + q)%Q) as (s & E & Es). exists s. split; [exact E|]. rewrite Es, qsum_cons. lra.
Qed.
Lemma anat_Q n : (@anat Q _ n == Qn n)%Q.
Proof. induction n as [|n IH]; [reflexivity|]. cbn [anat aadd Arith_Q a1]. rewrite IH, Qn_S. reflexivity. Qed.

Lemma mean_ok l : 2 <= length l -> is_mean l (ediv (esum l) (Fin (anat (length l)))).
Proof.
  intros Hl. split.
  - intros Hn. unfold esum. now rewrite esum_In_nan.
  - intros qs ->. rewrite map_length in *. destruct (esum_fin qs 0%Q) as (s & E & Es). unfold esum. cbn [a0 Arith_Q]. rewrite E. cbn [ediv aeqb Arith_Q a0].
    assert (Hp : ~ (anat (length qs) == 0)%Q) by (rewrite anat_Q; apply Qn_neq0; lia).
    destruct (Qeq_bool (anat (length qs)) 0) eqn:Ez; [apply Qeq_bool_iff in Ez; contradiction|].
    eexists. split; [reflexivity|]. unfold adiv. cbn [amul ainv Arith_Q]. rewrite <- (anat_Q (length qs)).
    transitivity s; [|rewrite Es; lra]. field. exact Hp.
Qed.

Lemma eleb_Q_refl (x : ext Q) : x <> NaN -> eleb x x = true.
Proof. intros H. unfold eleb. destruct x as [q| | |]; cbn; [|reflexivity|reflexivity|congruence]. rewrite (proj2 (Qeq_bool_iff q q)); [apply orb_true_r|reflexivity]. Qed.
Lemma eleb_Q_Fin a b : eleb (Fin a) (Fin b : ext Q) = true <-> (a <= b)%Q.
Proof.
  unfold eleb. cbn. rewrite orb_true_iff, negb_true_iff, Qeq_bool_iff. split.
  - intros [H|H]; [|rewrite H; apply Qle_refl]. destruct (Qlt_le_dec a b) as [Hl|Hl]; [now apply Qlt_le_weak|]. apply Qle_bool_iff in Hl. congruence.
  - intros H. destruct (Qle_bool b a) eqn:E; [right|now left]. apply Qle_bool_iff in E. now apply Qle_antisym.
Qed.
Lemma eleb_Q_trans (x y z : ext Q) : eleb x y = true -> eleb y z = true -> eleb x z = true.
Proof.
  destruct x as [a| | |], y as [b| | |], z as [c| | |]; try (cbn; congruence); try (intros; reflexivity).
  rewrite !eleb_Q_Fin. apply Qle_trans.
Qed.
Lemma eltb_Q_total (x y : ext Q) : x <> NaN -> y <> NaN -> eltb x y = false -> eleb y x = true.
Proof.
  destruct x as [a| | |], y as [b| | |]; try (cbn; congruence); intros _ _.
  rewrite eleb_Q_Fin. cbn. rewrite negb_false_iff. apply Qle_bool_iff.
Qed.
Lemma eltb_leb (x y : ext Q) : eltb x y = true -> eleb x y = true.
Proof. unfold eleb. now intros ->. Qed.

Section Extremum.
  Variable pick : ext Q -> ext Q -> ext Q.
  Variable below : ext Q -> ext Q -> bool.
  Hypothesis pick_nan_l : forall y, pick NaN y = NaN.
  Hypothesis pick_nan_r : forall x, pick x NaN = NaN.
  Hypothesis pick_in : forall x y, x <> NaN -> y <> NaN -> (pick x y = x \/ pick x y = y) /\ below (pick x y) x = true /\ below (pick x y) y = true.
  Hypothesis below_refl : forall x, x <> NaN -> below x x = true.
  Hypothesis below_trans : forall x y z, below x y = true -> below y z = true -> below x z = true.

  Lemma pick_fold_nan l : fold_left pick l NaN = NaN.
  Proof. induction l as [|y l IH]; cbn; [reflexivity|]. now rewrite pick_nan_l. Qed.
  Lemma pick_fold_In_nan l : forall x, In NaN l -> fold_left pick l x = NaN.
  Proof. induction l as [|y l IH]; intros x []; cbn; [subst; rewrite pick_nan_r; apply pick_fold_nan|now apply IH]. Qed.
  Lemma pick_fold l : forall x, x <> NaN -> ~ In NaN l ->
    In (fold_left pick l x) (x :: l) /\ forall y, In y (x :: l) -> below (fold_left pick l x) y = true.
  Proof.
    induction l as [|y l IH]; intros x Hx Hn; cbn [fold_left].
    - split; [now left|]. intros y [<-|[]]. now apply below_refl.
    - assert (Hy : y <> NaN) by (intros ->; apply Hn; now left). destruct (pick_in x y Hx Hy) as (Hp & Bx & By).
      assert (Hpn : pick x y <> NaN) by (destruct Hp as [->| ->]; assumption).
      destruct (IH (pick x y) Hpn) as (Hin & Hb); [intros Hl; apply Hn; now right|]. split.
      + destruct Hin as [E|Hin]; [rewrite <- E; destruct Hp as [->| ->]; cbn; tauto|cbn; tauto].
      + assert (Hb0 : below (fold_left pick l (pick x y)) (pick x y) = true) by (apply Hb; now left).
        intros z [<-|[<-|Hz]]; [eapply below_trans; [exact Hb0|exact Bx]|eapply below_trans; [exact Hb0|exact By]|]. apply Hb. now right.
  Qed.
  Lemma pick_spec l : 1 <= length l ->
    let r := match l with x :: r => fold_left pick r x | [] => NaN end in
    (In NaN l -> r = NaN) /\ (~ In NaN l -> In r l /\ forall y, In y l -> below r y = true).
  Proof.
    destruct l as [|x l]; cbn [length]; [lia|]. intros _. cbn zeta. split.
    - intros [->|H]; [apply pick_fold_nan|now apply pick_fold_In_nan].
    - intros H. apply pick_fold; [intros ->; apply H; now left|intros Hl; apply H; now right].
  Qed.
End Extremum.

Lemma min_ok l : 2 <= length l -> is_min l (match l with x :: r => fold_left nan_min r x | [] => NaN end).
Proof.
  intros Hl. apply (pick_spec nan_min eleb); [reflexivity|intros []; reflexivity| |apply eleb_Q_refl|apply eleb_Q_trans|lia].
  intros x y Hx Hy. unfold nan_min. assert (E : is_nan x || is_nan y = false) by (destruct x, y; cbn; congruence). rewrite E.
  destruct (eltb y x) eqn:El.
  - split; [now right|]. split; [now apply eltb_leb|now apply eleb_Q_refl].
  - split; [now left|]. split; [now apply eleb_Q_refl|now apply eltb_Q_total].
Qed.
Lemma max_ok l : 2 <= length l -> is_max l (match l with x :: r => fold_left nan_max r x | [] => NaN end).
Proof.
  intros Hl. apply (pick_spec nan_max (fun a b => eleb b a)); [reflexivity|intros []; reflexivity| |apply eleb_Q_refl| |lia].
  - intros x y Hx Hy. unfold nan_max. assert (E : is_nan x || is_nan y = false) by (destruct x, y; cbn; congruence). rewrite E.
    destruct (eltb x y) eqn:El.
    + split; [now right|]. split; [now apply eltb_leb|now apply eleb_Q_refl].
    + split; [now left|]. split; [now apply eleb_Q_refl|now apply eltb_Q_total].
  - intros x y z H1 H2. now apply (eleb_Q_trans z y x).
Qed.

Lemma align_method_names {A} {HA : Arith A} name : is_ok (@align_method A HA name) = true <-> In name ["mean"; "min"; "max"]%string.
Proof.
  unfold align_method. cbn.
  destruct (String.eqb_spec name "mean") as [->|H1]; [cbn; tauto|]. destruct (String.eqb_spec name "min") as [->|H2]; [cbn; tauto|].
  destruct (String.eqb_spec name "max") as [->|H3]; [cbn; tauto|]. cbn. split; [discriminate|]. intros [E|[E|[E|[]]]]; congruence.
Qed.

Lemma combined_by_single how key x : combined_by how key [x] x. Proof. now left. Qed.
Lemma combined_by_method how key name m l : lookup how key = Ok name -> align_method name = Ok m -> 2 <= length l -> combined_by how key l (m l).
Proof.
  intros Hn Hm Hl. right. split; [exact Hl|]. exists name. split; [exact Hn|]. unfold align_method in Hm.
  destruct (String.eqb_spec name "mean") as [->|_]; [injection Hm as <-; left; split; [reflexivity|now apply mean_ok]|].
  destruct (String.eqb_spec name "min") as [->|_]; [injection Hm as <-; right; left; split; [reflexivity|now apply min_ok]|].
  destruct (String.eqb_spec name "max") as [->|_]; [injection Hm as <-; right; right; split; [reflexivity|now apply max_ok]|]. discriminate.
Qed.

Theorem align_value_Q how key al (f g : frame Q) :
  align_frame how key al f = Ok g -> proper f -> increasingZ al -> after_1700 al -> after_1700 (index f) ->
  columns g = columns f /\ index g = al /\ proper g /\
  forall i t, nth_error al i = Some t -> exists row, nth_error (rows g) i = Some (t, row) /\
    forall c, c < length (columns f) -> exists x, nth_error row c = Some x /\ aligned_value (combined_by how key) f al c i x.
Proof. apply align_frame_value; [apply combined_by_single|apply combined_by_method]. Qed.

(** * The windows *)
Lemma belongs_nth al i t : belongs al i t = true -> exists hi, nth_error al i = Some hi /\ (t <= hi)%Z.
Proof.
  unfold belongs. destruct (nth_error al i) as [hi|]; [|discriminate]. intros H. apply andb_true_iff in H. exists hi. split; [reflexivity|].
  apply Z.leb_le. tauto.
Qed.
Lemma belongs_cons_S u al i t : increasingZ (u :: al) -> belongs (u :: al) (S i) t = (belongs al i t && (u <? t)%Z)%bool.
Proof.
  intros Hinc. inversion Hinc as [|? ? Hinc' Hall]; subst. unfold belongs.
  change (nth_error (u :: al) (S i)) with (nth_error al i).
  destruct i as [|j]; [cbn; now rewrite andb_true_r|]. change (nth_error (u :: al) (S j)) with (nth_error al j).
  destruct (nth_error al (S j)) as [hi|] eqn:Eh; [|reflexivity].
  destruct (nth_error al j) as [lo|] eqn:El.
  - rewrite Forall_forall in Hall. specialize (Hall lo (nth_error_In _ _ El)). apply eq_true_iff_eq. rewrite !andb_true_iff, !Z.ltb_lt. lia.
  - apply nth_error_None in El. assert (S j < length al) by (apply nth_error_Some; congruence). lia.
Qed.
Theorem windows_once al t : increasingZ al -> (exists hi, In hi al /\ (t <= hi)%Z) -> exists! i, belongs al i t = true.
Proof.
  induction al as [|u al IH]; intros Hinc (hi & Hin & Hle); [destruct Hin|].
  destruct (Z_le_gt_dec t u) as [Hu|Hu].
  - exists 0. split; [unfold belongs; cbn; rewrite andb_true_r; now apply Z.leb_le|].
    intros [|i] Hi; [reflexivity|]. rewrite belongs_cons_S in Hi by exact Hinc. apply andb_true_iff in Hi. rewrite Z.ltb_lt in Hi. lia.
  - destruct IH as (i & Hi & Hun).
    { now inversion Hinc. }
    { exists hi. destruct Hin as [<-|Hin]; [lia|]. tauto. }
    exists (S i). split.
    + rewrite belongs_cons_S by exact Hinc. rewrite Hi. cbn. apply Z.ltb_lt. lia.
    + intros [|k] Hk.
      * apply belongs_nth in Hk. destruct Hk as (h & [= <-] & Hk). lia.
      * rewrite belongs_cons_S in Hk by exact Hinc. apply andb_true_iff in Hk. f_equal. apply Hun. tauto.
Qed.

Section More.
  Context {A : Type} {HA : Arith A}.
  Notation cell := (ext A).

  (** * Acceptance *)
  Lemma mapM_ok_iff {X Y} (f : X -> result Y) l : is_ok (mapM f l) = true <-> forall x, In x l -> is_ok (f x) = true.
  Proof.
    induction l as [|x l IH]; cbn; [split; [intros _ ? []|reflexivity]|].
    destruct (f x) as [y|e] eqn:E; cbn [bind].
    - destruct (mapM f l); cbn [bind is_ok] in *; split; intros H.
      + intros z [<-|Hz]; [now rewrite E|]. now apply IH.
      + reflexivity.
      + discriminate.
      + apply IH. intros z Hz. apply H. now right.
    - cbn. split; [discriminate|]. intros H. specialize (H x (or_introl eq_refl)). now rewrite E in H.
  Qed.
  Theorem align_accepts how key al (f : frame A) : increasingZ al -> after_1700 al -> after_1700 (index f) -> columns f <> [] ->
    (is_ok (align_frame how key al f) = true <->
     rows f <> [] /\ al <> [] /\
     ((exists i, 2 <= length (window f al i)) -> exists name, lookup how key = Ok name /\ In name ["mean"; "min"; "max"]%string)).
  Proof.
    intros Hinc Hal Hf Hc.
    destruct (rows f) as [|r0 rr] eqn:Er; [unfold align_frame; rewrite Er; cbn; split; [discriminate|tauto]|].
    destruct al as [|t0 al0] eqn:Eal; [unfold align_frame; rewrite Er; cbn; split; [discriminate|tauto]|]. rewrite <- Eal in *.
    rewrite align_frame_windows by (congruence || assumption).
    assert (Hok : forall (r : result (list (list cell))) (k : list (list cell) -> frame A), is_ok (do v <- r ;; Ok (k v)) = is_ok r) by (intros [] ?; reflexivity).
    rewrite (Hok _ (fun vals => {| columns := columns f; rows := ffill (length (columns f)) (combine al vals) |})), mapM_ok_iff.
    assert (Hc' : Nat.eqb (length (columns f)) 0 = false) by (destruct (columns f); [congruence|reflexivity]).
    split.
    - intros H. split; [discriminate|]. split; [congruence|]. intros (i & Hi).
      destruct (nth_error al i) as [t|] eqn:Et.
      + destruct (raw_window how key f al i t Hf Et) as (p & Ep & Er'). specialize (H p (nth_error_In _ _ Ep)). rewrite Er' in H.
        unfold raw_rows in H. rewrite Hc' in H. destruct (window f al i) as [|r1 [|r2 rest]]; cbn [length] in Hi; [lia|lia|].
        destruct (lookup how key) as [name|]; [|discriminate]. exists name. split; [reflexivity|]. apply (@align_method_names A HA). cbn [bind] in H.
        destruct (align_method name); [reflexivity|discriminate].
      + assert (Hw : window f al i = []) by (apply filter_nil; intros r _; unfold belongs; now rewrite Et). rewrite Hw in Hi. cbn in Hi. lia.
    - intros (_ & _ & H) p Hp. apply In_nth_error in Hp. destruct Hp as [i Hi].
      assert (Hlt : i < length al) by (assert (i < length (combine (year_1700 :: al) al)) by (apply nth_error_Some; congruence); rewrite combine_length in *; lia).
      destruct (nth_error al i) as [t|] eqn:Et; [|apply nth_error_None in Et; lia].
      destruct (raw_window how key f al i t Hf Et) as (p' & Ep & Er'). rewrite Hi in Ep. injection Ep as <-. rewrite Er'.
      unfold raw_rows. rewrite Hc'. destruct (window f al i) as [|r1 [|r2 rest]] eqn:Ew; [reflexivity|reflexivity|].
      destruct H as (name & En & Hn); [exists i; rewrite Ew; cbn; lia|]. rewrite En. cbn [bind]. apply (@align_method_names A HA) in Hn.
      destruct (align_method name); [reflexivity|discriminate].
  Qed.

  (** * No look-ahead *)
  Lemma increasing_split T al : increasingZ al -> exists q, al = filter (fun t => (t <=? T)%Z) al ++ q /\ Forall (fun t => (T < t)%Z) q.
  Proof.
    induction al as [|u al IH]; intros Hinc; [now exists []|]. inversion Hinc as [|? ? Hinc' Hall]; subst. cbn [filter].
    destruct (Z.leb_spec u T) as [Hu|Hu].
    - destruct (IH Hinc') as (q & E & Hq). exists q. cbn. split; [now f_equal|exact Hq].
    - exists (u :: al). split.
      + replace (filter (fun t => (t <=? T)%Z) al) with (@nil Z); [reflexivity|]. symmetry. apply filter_nil. intros x Hx.
        rewrite Forall_forall in Hall. specialize (Hall x Hx). apply Z.leb_gt. lia.
      + constructor; [exact Hu|]. eapply Forall_impl; [|exact Hall]. cbn. lia.
  Qed.
  Lemma combine_succ_app (p q : list Z) : forall lo, exists lo', combine (lo :: p ++ q) (p ++ q) = combine (lo :: p) p ++ combine (lo' :: q) q.
  Proof.
    induction p as [|u p IH]; intros lo; [exists lo; reflexivity|]. destruct (IH u) as (lo' & E). exists lo'.
    change (combine (lo :: (u :: p) ++ q) ((u :: p) ++ q)) with ((lo, u) :: combine (u :: p ++ q) (p ++ q)). rewrite E. reflexivity.
  Qed.
  Lemma mapM_app {X Y} (f : X -> result Y) a b ys : mapM f (a ++ b) = Ok ys -> exists y1 y2, ys = y1 ++ y2 /\ mapM f a = Ok y1 /\ mapM f b = Ok y2.
  Proof.
    revert ys. induction a as [|x a IH]; intros ys H; [exists [], ys; auto|]. cbn in H.
    destruct (f x) as [y|] eqn:E; [|discriminate]. cbn [bind] in H. destruct (mapM f (a ++ b)) as [zs|] eqn:E2; [|discriminate]. injection H as <-.
    destruct (IH zs eq_refl) as (y1 & y2 & -> & H1 & H2). exists (y :: y1), y2. cbn. rewrite E, H1. auto.
  Qed.
  Lemma ffill_from_app (a b : list (Z * list cell)) : forall w, exists w', ffill_from w (a ++ b) = ffill_from w a ++ ffill_from w' b.
  Proof. induction a as [|[t row] a IH]; intros w; [now exists w|]. destruct (IH (fill_row w row)) as (w' & E). exists w'. cbn. now rewrite E. Qed.
  Lemma upto_all {V} T (l : list (Z * V)) : Forall (fun t => (t <= T)%Z) (map fst l) -> upto T l = l.
  Proof.
    unfold upto. induction l as [|[t v] l IH]; cbn; intros H; [reflexivity|]. inversion H as [|? ? H1 H2]; subst. apply Z.leb_le in H1. rewrite H1. f_equal. now apply IH.
  Qed.
  Lemma upto_none {V} T (l : list (Z * V)) : Forall (fun t => (T < t)%Z) (map fst l) -> upto T l = [].
  Proof. intros H. apply filter_nil. intros x Hx. rewrite Forall_forall in H. specialize (H (fst x) (in_map fst _ _ Hx)). apply Z.leb_gt. lia. Qed.
  Lemma upto_app {V} T (a b : list (Z * V)) : upto T (a ++ b) = upto T a ++ upto T b.
  Proof. apply filter_app. Qed.
  Lemma map_fst_combine {X Y} (a : list X) (b : list Y) : length a = length b -> map fst (combine a b) = a.
  Proof. revert b. induction a as [|x a IH]; intros [|y b] H; cbn in *; try discriminate; [reflexivity|]. f_equal. apply IH. lia. Qed.
  Lemma combine_app {X Y} (a a' : list X) (b b' : list Y) : length a = length b -> combine (a ++ a') (b ++ b') = combine a b ++ combine a' b'.
  Proof. revert b. induction a as [|x a IH]; intros [|y b] H; cbn in *; try discriminate; [reflexivity|]. f_equal. apply IH. lia. Qed.
  Lemma between_upto T lo hi (f f' : frame A) : (hi <= T)%Z -> upto T (rows f) = upto T (rows f') -> between f lo hi = between f' lo hi.
  Proof.
    intros Hh H. assert (E : forall g : frame A, between g lo hi = filter (fun r => (lo <? fst r)%Z && (fst r <=? hi)%Z) (upto T (rows g))).
    { intros g. unfold between, upto. induction (rows g) as [|r l IH]; [reflexivity|]. cbn [filter]. destruct (Z.leb_spec (fst r) T) as [Hr|Hr].
      - cbn [filter]. now rewrite IH.
      - replace (fst r <=? hi)%Z with false by (symmetry; apply Z.leb_gt; lia). now rewrite andb_false_r, IH. }
    now rewrite !E, H.
  Qed.

  (** What has been aligned up to T, as a function of the data up to T. *)
  Lemma align_frame_upto how key al T (f g : frame A) : increasingZ al -> after_1700 al -> align_frame how key al f = Ok g ->
    let p := filter (fun t => (t <=? T)%Z) al in
    columns g = columns f /\ index g = al /\
    exists vals, mapM (raw how key f) (combine (year_1700 :: p) p) = Ok vals /\ upto T (rows g) = ffill (length (columns f)) (combine p vals).
  Proof.
    intros Hinc Hal H p. assert (Hne : rows f <> [] /\ al <> []).
    { unfold align_frame in H. destruct (rows f); [discriminate|]. destruct al; [discriminate|]. split; discriminate. }
    rewrite align_frame_windows in H by tauto. destruct (mapM _ _) as [vals|] eqn:Ev; [|discriminate]. injection H as <-. cbn [columns rows].
    split; [reflexivity|]. split.
    { unfold index. cbn [rows]. unfold ffill. rewrite map_fst_ffill_from. apply map_fst_combine. apply mapM_length in Ev. rewrite combine_length in Ev. cbn [length] in Ev. lia. }
    destruct (increasing_split T al Hinc) as (q & E & Hq). fold p in E.
    destruct (combine_succ_app p q year_1700) as (lo' & Ec). rewrite E, Ec in Ev. apply mapM_app in Ev. destruct Ev as (v1 & v2 & -> & E1 & E2).
    exists v1. split; [exact E1|].
    assert (L1 : length p = length v1) by (apply mapM_length in E1; rewrite combine_length in E1; cbn [length] in E1; lia).
    assert (L2 : length q = length v2) by (apply mapM_length in E2; rewrite combine_length in E2; cbn [length] in E2; lia).
    rewrite E, combine_app by exact L1. unfold ffill. destruct (ffill_from_app (combine p v1) (combine q v2) (repeat NaN (length (columns f)))) as (w' & ->).
    rewrite upto_app, upto_all, upto_none, app_nil_r; [reflexivity| |].
    - now rewrite map_fst_ffill_from, map_fst_combine.
    - rewrite map_fst_ffill_from, map_fst_combine by exact L1. apply Forall_forall. intros x Hx. apply filter_In in Hx. apply Z.leb_le. tauto.
  Qed.

  Theorem align_no_lookahead how key al al' T (f f' g g' : frame A) :
    increasingZ al -> increasingZ al' -> after_1700 al -> after_1700 al' ->
    columns f = columns f' -> upto T (rows f) = upto T (rows f') -> filter (fun t => (t <=? T)%Z) al = filter (fun t => (t <=? T)%Z) al' ->
    align_frame how key al f = Ok g -> align_frame how key al' f' = Ok g' -> upto T (rows g) = upto T (rows g').
  Proof.
    intros Hi Hi' Ha Ha' Hc Hr Hal H H'.
    destruct (align_frame_upto how key al T f g Hi Ha H) as (_ & _ & v & E & ->). destruct (align_frame_upto how key al' T f' g' Hi' Ha' H') as (_ & _ & v' & E' & ->).
    rewrite <- Hal in *. set (p := filter _ al) in *. rewrite <- Hc. do 2 f_equal.
    assert (Heq : mapM (raw how key f) (combine (year_1700 :: p) p) = mapM (raw how key f') (combine (year_1700 :: p) p)); [|congruence].
    assert (Hx : forall l, (forall x, In x l -> (snd x <= T)%Z) -> mapM (raw how key f) l = mapM (raw how key f') l).
    { induction l as [|x l IH]; intros Hl; [reflexivity|]. cbn [mapM]. rewrite IH by (intros; apply Hl; now right).
      unfold raw at 1 3. rewrite (between_upto T _ _ f f' (Hl x (or_introl eq_refl)) Hr). unfold raw_rows at 1 2. rewrite Hc. reflexivity. }
    apply Hx. intros [lo hi] Hin. apply in_combine_r in Hin. apply filter_In in Hin. cbn. apply Z.leb_le. tauto.
  Qed.
End More.
