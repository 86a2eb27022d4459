(** Alignment of a feature frame. *)
From Coq Require Import String QArith Lqa Permutation.
From Verif Require Import Prelude PreludeFacts Num QSum QSumFacts Pipe_Model Pipe_Spec.
Open Scope nat_scope.
Notation length := List.length.

Lemma filter_ext_In {X} (f g : X -> bool) l : (forall x, In x l -> f x = g x) -> filter f l = filter g l.
Proof.
  induction l as [|a l IH]; intros H; cbn; [reflexivity|]. rewrite (H a) by (now left).
  rewrite IH by (intros x Hx; apply H; now right). reflexivity.
Qed.
Lemma filter_nil {X} (f : X -> bool) l : filter f l = [] <-> forall x, In x l -> f x = false.
Proof.
  induction l as [|a l IH]; cbn; [split; [intros _ x []|reflexivity]|].
  destruct (f a) eqn:E; split; intros H.
  - discriminate.
  - specialize (H a (or_introl eq_refl)). congruence.
  - intros x [<-|Hx]; [exact E|]. now apply IH.
  - apply IH. intros x Hx. apply H. now right.
Qed.

Section Alignment.
  Context {A : Type} {HA : Arith A}.
  Notation cell := (ext A).

  (** What one window contributes. *)
  Definition raw_rows (how : dict string) (key : string) (f : frame A) (subset : list (Z * list cell)) : result (list cell) :=
    if Nat.eqb (length (columns f)) 0 then Ok [] else
    match subset with
    | [] => Ok (repeat NaN (length (columns f)))
    | [r] => Ok (snd r)
    | _ => do name <- lookup how key ;; do m <- align_method name ;; Ok (over_rows m (length (columns f)) (map snd subset))
    end.
  Definition between (f : frame A) (lo hi : Z) := filter (fun r => (lo <? fst r)%Z && (fst r <=? hi)%Z) (rows f).
  Definition raw (how : dict string) (key : string) (f : frame A) (p : Z * Z) := raw_rows how key f (between f (fst p) (snd p)).

  Lemma set_loc_other (rs : list (Z * list cell)) t v : ~ In t (map fst rs) -> set_loc rs t v = rs.
  Proof.
    induction rs as [|[u w] rs IH]; cbn; intros H; [reflexivity|].
    destruct (Z.eqb_spec u t) as [->|]; [tauto|]. f_equal. apply IH. tauto.
  Qed.
  Lemma set_loc_mid (a b : list (Z * list cell)) t v w : ~ In t (map fst a) -> ~ In t (map fst b) ->
    set_loc (a ++ (t, w) :: b) t v = a ++ (t, v) :: b.
  Proof.
    intros Ha Hb. unfold set_loc. rewrite map_app. cbn [map fst].
    rewrite Z.eqb_refl. fold (set_loc a t v). fold (set_loc b t v). now rewrite !set_loc_other.
  Qed.

  Definition empties (w : nat) (l : list Z) : list (Z * list cell) := map (fun t => (t, repeat NaN w)) l.
  Lemma map_fst_empties w l : map fst (empties w l) = l.
  Proof. unfold empties. rewrite map_map. cbn. apply map_id. Qed.

  Lemma align_fold how key f : length (columns f) <> 0 -> forall l lo prev done,
    (prev <= lo)%Z -> (forall r, In r (rows f) -> ~ (prev < fst r <= lo)%Z) -> increasingZ l -> Forall (fun t => (lo <= t)%Z) l ->
    (forall t, In t l -> ~ In t (map fst done)) ->
    match foldM (align_step how key f) (prev, done ++ empties (length (columns f)) l) l with
    | Ok st => exists vals, mapM (raw how key f) (combine (lo :: l) l) = Ok vals /\ snd st = done ++ combine l vals
    | Err e => mapM (raw how key f) (combine (lo :: l) l) = Err e
    end.
  Proof.
    intros E0. induction l as [|t l IH]; intros lo prev done Hp Hno Hinc Hlo Hdone.
    { cbn. exists []. split; [reflexivity|now rewrite app_nil_r]. }
    inversion Hinc as [|? ? Hinc' Hall]; subst. inversion Hlo as [|? ? Ht Hlo']; subst.
    assert (Hl : Forall (fun u => (t <= u)%Z) l) by (eapply Forall_impl; [|exact Hall]; cbn; lia).
    assert (Htl : ~ In t l) by (intros Hin; rewrite Forall_forall in Hall; specialize (Hall t Hin); lia).
    cbn [foldM]. change (combine (lo :: t :: l) (t :: l)) with ((lo, t) :: combine (t :: l) l). cbn [mapM].
    assert (Hsub : filter (fun r => (prev <? fst r)%Z && (fst r <=? t)%Z) (rows f) = between f lo t).
    { apply filter_ext_In. intros r Hr. specialize (Hno r Hr). apply eq_true_iff_eq. rewrite !andb_true_iff, !Z.ltb_lt, !Z.leb_le. lia. }
    unfold align_step at 1. cbn [fst snd]. rewrite Hsub.
    change (raw how key f (lo, t)) with (raw_rows how key f (between f lo t)). unfold raw_rows.
    assert (Hkeep : forall v, done ++ (t, v) :: empties (length (columns f)) l = (done ++ [(t, v)]) ++ empties (length (columns f)) l)
      by (intros; now rewrite <- app_assoc).
    assert (Hd' : forall v u, In u l -> ~ In u (map fst (done ++ [(t, v)]))).
    { intros v u Hu. rewrite map_app, in_app_iff. cbn. intros [Hx|[Hx|[]]]; [exact (Hdone u (or_intror Hu) Hx)|]. subst. tauto. }
    assert (Hset : forall v, set_loc (done ++ empties (length (columns f)) (t :: l)) t v = (done ++ [(t, v)]) ++ empties (length (columns f)) l).
    { intros v. change (empties (length (columns f)) (t :: l)) with ((t, repeat (@NaN A) (length (columns f))) :: empties (length (columns f)) l).
      rewrite set_loc_mid, Hkeep; [reflexivity|apply Hdone; now left|now rewrite map_fst_empties]. }
    assert (Hstep : forall v prev', (prev' <= t)%Z -> (forall r, In r (rows f) -> ~ (prev' < fst r <= t)%Z) ->
      match foldM (align_step how key f) (prev', (done ++ [(t, v)]) ++ empties (length (columns f)) l) l with
      | Ok st => exists vals, (do ys <- mapM (raw how key f) (combine (t :: l) l) ;; Ok (v :: ys)) = Ok vals /\ snd st = done ++ combine (t :: l) vals
      | Err e => (do ys <- mapM (raw how key f) (combine (t :: l) l) ;; Ok (v :: ys)) = Err e
      end).
    { intros v prev' H1 H2. specialize (IH t prev' (done ++ [(t, v)]) H1 H2 Hinc' Hl (Hd' v)).
      destruct (foldM _ _ l) as [st|e].
      - destruct IH as (vals & -> & ->). exists (v :: vals). split; [reflexivity|]. cbn. now rewrite <- app_assoc.
      - now rewrite IH. }
    destruct (Nat.eqb_spec (length (columns f)) 0) as [E1|_]; [contradiction|].
    destruct (between f lo t) as [|r1 [|r2 rest]] eqn:Eb; cbn [bind].
    - change (empties (length (columns f)) (t :: l)) with ((t, repeat (@NaN A) (length (columns f))) :: empties (length (columns f)) l).
      rewrite Hkeep. apply Hstep; [lia|]. intros r Hr Hin. specialize (Hno r Hr).
      pose proof (proj1 (filter_nil _ _) Eb r Hr) as Hf. cbn in Hf. apply andb_false_iff in Hf. rewrite Z.ltb_ge, Z.leb_gt in Hf. lia.
    - rewrite Hset. apply Hstep; [lia|]. intros; lia.
    - destruct (lookup how key) as [name|e]; cbn [bind]; [|reflexivity].
      destruct (align_method name) as [m|e]; cbn [bind]; [|reflexivity].
      rewrite Hset. apply Hstep; [lia|]. intros; lia.
  Qed.

  Lemma align_fold_0 how key f : length (columns f) = 0 -> forall l st, foldM (align_step how key f) st l = Ok st.
  Proof. intros E. induction l as [|t l IH]; intros st; cbn; [reflexivity|]. unfold align_step at 1. rewrite E. cbn. apply IH. Qed.

  Lemma mapM_raw_0 how key f : length (columns f) = 0 -> forall l, mapM (raw how key f) l = Ok (map (fun _ => []) l).
  Proof. intros E l. apply mapM_ok_map. intros x _. unfold raw, raw_rows. now rewrite E. Qed.

  (** The frame as a function of the windows. *)
  Lemma align_frame_windows how key al f : rows f <> [] -> al <> [] -> increasingZ al -> after_1700 al ->
    align_frame how key al f =
    do vals <- mapM (raw how key f) (combine (year_1700 :: al) al) ;; Ok {| columns := columns f; rows := ffill (length (columns f)) (combine al vals) |}.
  Proof.
    intros Hf Hal Hinc Haf. unfold align_frame. destruct (rows f) as [|r0 rs] eqn:Er; [contradiction|].
    destruct al as [|t0 al']; [contradiction|]. rewrite <- Er in *. set (al := t0 :: al') in *. fold (empties (length (columns f)) al).
    destruct (Nat.eq_dec (length (columns f)) 0) as [E0|E0].
    - rewrite (align_fold_0 how key f E0), (mapM_raw_0 how key f E0). cbn [bind snd]. do 2 f_equal. rewrite E0. f_equal.
      clear. generalize year_1700. induction al as [|t l IH]; intros lo; [reflexivity|].
      change (combine (lo :: t :: l) (t :: l)) with ((lo, t) :: combine (t :: l) l). cbn. f_equal. apply IH.
    - pose proof (align_fold how key f E0 al year_1700 year_1700 [] (Z.le_refl _)) as H. cbn [app] in H.
      assert (Hx : forall r, In r (rows f) -> ~ (year_1700 < fst r <= year_1700)%Z) by (intros; lia).
      assert (Hy : Forall (fun t => (year_1700 <= t)%Z) al) by (eapply Forall_impl; [|exact Haf]; unfold year_1700; cbn; lia).
      specialize (H Hx Hinc Hy (fun _ _ HH => HH)).
      destruct (foldM _ _ al) as [st|e].
      + destruct H as (vals & E1 & E2). rewrite E1. cbn [bind]. now rewrite E2.
      + now rewrite H.
  Qed.

  (** * The windows *)
  Lemma nth_combine_succ (al : list Z) : forall lo i t, nth_error al i = Some t ->
    nth_error (combine (lo :: al) al) i = Some (match i with O => lo | S j => nth j al 0%Z end, t).
  Proof.
    induction al as [|u al IH]; intros lo i t H; [destruct i; discriminate|].
    change (combine (lo :: u :: al) (u :: al)) with ((lo, u) :: combine (u :: al) al).
    destruct i as [|i]; cbn [nth_error] in H |- *; [now injection H as ->|].
    rewrite (IH u i t H). destruct i; reflexivity.
  Qed.

  Lemma between_window f al i t : after_1700 (index f) -> nth_error al i = Some t ->
    between f (match i with O => year_1700 | S j => nth j al 0%Z end) t = window f al i.
  Proof.
    intros Haf Hi. apply filter_ext_In. intros r Hr. unfold belongs. rewrite Hi.
    assert (Hr' : (year_1700 < fst r)%Z) by (unfold after_1700 in Haf; rewrite Forall_forall in Haf; apply Haf; now apply in_map).
    destruct i as [|j].
    - rewrite andb_true_r. apply eq_true_iff_eq. rewrite andb_true_iff, Z.ltb_lt. tauto.
    - assert (j < length al) by (assert (S j < length al) by (apply nth_error_Some; congruence); lia).
      rewrite (nth_error_nth' al 0%Z H). apply andb_comm.
  Qed.

  Lemma raw_window how key f al i t : after_1700 (index f) -> nth_error al i = Some t ->
    exists p, nth_error (combine (year_1700 :: al) al) i = Some p /\ raw how key f p = raw_rows how key f (window f al i).
  Proof.
    intros Haf Hi. eexists. split; [apply nth_combine_succ, Hi|]. unfold raw. cbn [fst snd]. now rewrite between_window.
  Qed.

  (** * Filling forward *)
  Lemma map_fst_ffill_from (b : list cell) (rs : list (Z * list cell)) : map fst (ffill_from b rs) = map fst rs.
  Proof. revert b. induction rs as [|[t row] rs IH]; intros b; cbn; [reflexivity|]. now rewrite IH. Qed.

  Lemma fill_row_length (b row : list cell) : length b = length row -> length (fill_row b row) = length row.
  Proof. intros H. unfold fill_row. rewrite map_length, combine_length. lia. Qed.

  Lemma nth_fill_row (b row : list cell) c : length b = length row -> c < length row ->
    nth c (fill_row b row) NaN = if is_nan (nth c row NaN) then nth c b NaN else nth c row NaN.
  Proof.
    revert row c. induction b as [|x b IH]; intros [|y row] c H Hc; cbn in *; try lia.
    destruct c as [|c]; [reflexivity|]. apply IH; lia.
  Qed.

  (** The value kept in a column: the last that is not NaN. *)
  Fixpoint last_known (x : cell) (l : list cell) : cell := match l with [] => x | y :: r => last_known (if is_nan y then x else y) r end.

  Lemma nth_ffill_from w : forall (rs : list (Z * list cell)) b i t row, Forall (fun r => length (snd r) = w) rs -> length b = w -> nth_error rs i = Some (t, row) ->
    exists row', nth_error (ffill_from b rs) i = Some (t, row') /\ length row' = w /\
      forall c, c < w -> nth c row' NaN = last_known (nth c b NaN) (map (fun r => nth c (snd r) NaN) (firstn (S i) rs)).
  Proof.
    induction rs as [|[u x] rs IH]; intros b i t row Hw Hb Hi; [destruct i; discriminate|].
    inversion Hw as [|? ? Hx Hw']; subst. cbn in Hx.
    destruct i as [|i].
    - cbn in Hi. injection Hi as -> ->. exists (fill_row b row). cbn [ffill_from nth_error]. split; [reflexivity|].
      split; [rewrite fill_row_length; congruence|]. intros c Hc. cbn. rewrite nth_fill_row by congruence. reflexivity.
    - cbn [nth_error ffill_from] in Hi |- *.
      destruct (IH (fill_row b x) i t row) as (row' & E & El & Ev); [exact Hw'|rewrite fill_row_length; congruence|exact Hi|].
      exists row'. split; [exact E|]. split; [exact El|]. intros c Hc. rewrite (Ev c Hc). cbn [firstn map snd last_known].
      rewrite nth_fill_row by congruence. reflexivity.
  Qed.

  Lemma last_known_snoc l : forall x y, last_known x (l ++ [y]) = if is_nan y then last_known x l else y.
  Proof. induction l as [|z l IH]; intros x y; cbn; [reflexivity|]. apply IH. Qed.

  Lemma raw_rows_length how key f sub v : proper f -> (forall r, In r sub -> In r (rows f)) -> raw_rows how key f sub = Ok v -> length v = length (columns f).
  Proof.
    intros Hp Hs. unfold raw_rows. destruct (Nat.eqb_spec (length (columns f)) 0) as [E|_]; [intros [= <-]; now rewrite E|].
    destruct sub as [|r1 [|r2 rest]].
    - intros [= <-]. apply repeat_length.
    - intros [= <-]. unfold proper in Hp. rewrite Forall_forall in Hp. apply Hp, Hs. now left.
    - destruct (lookup how key) as [nm|]; [|discriminate]. cbn [bind]. destruct (align_method nm) as [m|]; [|discriminate].
      intros [= <-]. unfold over_rows. now rewrite map_length, seq_length.
  Qed.

  Lemma over_rows_nth m w vs c : c < w -> nth c (over_rows m w vs) (@NaN A) = m (map (fun row => nth c row NaN) vs).
  Proof.
    intros Hc. unfold over_rows. rewrite (nth_indep _ NaN ((fun c => m (map (fun row => nth c row NaN) vs)) 0)) by (now rewrite map_length, seq_length).
    rewrite (map_nth (fun c => m (map (fun row => nth c row NaN) vs))), seq_nth by exact Hc. reflexivity.
  Qed.

  Lemma raw_rows_cell how key f sub v c : raw_rows how key f sub = Ok v -> c < length (columns f) ->
    (sub = [] /\ nth c v NaN = NaN) \/ cells_at c sub = [nth c v NaN] \/
    (2 <= length sub /\ exists name m, lookup how key = Ok name /\ align_method name = Ok m /\ nth c v NaN = m (cells_at c sub)).
  Proof.
    intros H Hc. unfold raw_rows in H. destruct (Nat.eqb_spec (length (columns f)) 0) as [E|_]; [lia|].
    destruct sub as [|r1 [|r2 rest]].
    - injection H as <-. left. split; [reflexivity|]. apply nth_repeat.
    - injection H as <-. right. left. reflexivity.
    - right. right. destruct (lookup how key) as [nm|] eqn:E1; [|discriminate]. cbn [bind] in H. destruct (align_method nm) as [m|] eqn:E2; [|discriminate].
      injection H as <-. split; [cbn; lia|]. exists nm, m. split; [reflexivity|]. split; [exact E2|]. rewrite over_rows_nth by exact Hc.
      cbn [cells_at map snd]. now rewrite map_map.
  Qed.

  Lemma window_In (f : frame A) al i r : In r (window f al i) -> In r (rows f).
  Proof. intros H. apply filter_In in H. tauto. Qed.

  Lemma firstn_S_snoc {X} (l : list X) i x : nth_error l i = Some x -> firstn (S i) l = firstn i l ++ [x].
  Proof. revert i. induction l as [|y l IH]; intros [|i] H; cbn in *; try discriminate; [now injection H as ->|]. f_equal. now apply IH. Qed.

  Lemma nth_error_combine {X Y} (a : list X) (b : list Y) i x y : nth_error a i = Some x -> nth_error b i = Some y -> nth_error (combine a b) i = Some (x, y).
  Proof. revert b i. induction a as [|u a IH]; intros [|v b] [|i] Ha Hb; cbn in *; try discriminate; [congruence|]. now apply IH. Qed.

  Theorem align_frame_value (combined : list cell -> cell -> Prop) how key al f g :
    (forall x, combined [x] x) ->
    (forall name m l, lookup how key = Ok name -> align_method name = Ok m -> 2 <= length l -> combined l (m l)) ->
    align_frame how key al f = Ok g -> proper f -> increasingZ al -> after_1700 al -> after_1700 (index f) ->
    columns g = columns f /\ index g = al /\ proper g /\
    forall i t, nth_error al i = Some t -> exists row, nth_error (rows g) i = Some (t, row) /\
      forall c, c < length (columns f) -> exists x, nth_error row c = Some x /\ aligned_value combined f al c i x.
  Proof.
    intros H1 H2 H Hp Hinc Hal Hf.
    assert (Hne : rows f <> [] /\ al <> []).
    { unfold align_frame in H. destruct (rows f); [discriminate|]. destruct al; [discriminate|]. split; discriminate. }
    rewrite align_frame_windows in H by tauto. destruct (mapM _ _) as [vals|] eqn:Ev; [|discriminate].
    injection H as <-. cbn [columns rows]. unfold index. cbn [rows].
    assert (Hlen : length vals = length al) by (apply mapM_length in Ev; rewrite combine_length in Ev; cbn [length] in Ev; lia).
    assert (Hidx : map fst (ffill (length (columns f)) (combine al vals)) = al).
    { unfold ffill. rewrite map_fst_ffill_from. clear -Hlen. revert vals Hlen. induction al as [|t l IH]; intros [|v vs] Hl; cbn in *; try discriminate; [reflexivity|].
      f_equal. apply IH. lia. }
    assert (Hval : forall i t, nth_error al i = Some t -> exists v, nth_error vals i = Some v /\ raw_rows how key f (window f al i) = Ok v).
    { intros i t Hi. destruct (raw_window how key f al i t Hf Hi) as (pr & E1 & E2). destruct (mapM_nth _ _ _ _ _ Ev E1) as (v & E3 & E4).
      exists v. split; [exact E3|]. congruence. }
    assert (Hvw : forall i v, nth_error vals i = Some v -> length v = length (columns f)).
    { intros i v Hv. assert (Hi : i < length al) by (rewrite <- Hlen; apply nth_error_Some; congruence).
      destruct (nth_error al i) as [t|] eqn:Et; [|apply nth_error_None in Et; lia].
      destruct (Hval i t Et) as (v' & E1 & E2). rewrite Hv in E1. injection E1 as <-.
      eapply raw_rows_length; [exact Hp| |exact E2]. apply window_In. }
    assert (Hw : Forall (fun r => length (snd r) = length (columns f)) (combine al vals)).
    { apply Forall_forall. intros [t v] Hin. apply in_combine_r in Hin. apply In_nth_error in Hin. destruct Hin as [i Hi]. exact (Hvw i v Hi). }
    assert (Hrow : forall i t, nth_error al i = Some t -> exists row, nth_error (ffill (length (columns f)) (combine al vals)) i = Some (t, row) /\
       length row = length (columns f) /\
       forall c, c < length (columns f) -> nth c row NaN = last_known NaN (map (fun r => nth c (snd r) NaN) (firstn (S i) (combine al vals)))).
    { intros i t Hi. destruct (Hval i t Hi) as (v & E1 & _).
      destruct (nth_ffill_from (length (columns f)) (combine al vals) (repeat NaN (length (columns f))) i t v Hw (repeat_length _ _) (nth_error_combine _ _ _ _ _ Hi E1))
        as (row & E & El & Ec).
      exists row. split; [exact E|]. split; [exact El|]. intros c Hc. rewrite (Ec c Hc). now rewrite nth_repeat. }
    split; [reflexivity|]. split; [exact Hidx|]. split.
    { unfold proper. cbn [rows columns]. apply Forall_forall. intros [t row] Hin. apply In_nth_error in Hin. destruct Hin as [i Hi].
      assert (Et : nth_error al i = Some t) by (rewrite <- Hidx, nth_error_map, Hi; reflexivity).
      destruct (Hrow i t Et) as (row' & E & El & _). rewrite Hi in E. injection E as <-. exact El. }
    intros i t Hi. destruct (Hrow i t Hi) as (row & E & El & Ec). exists row. split; [exact E|]. intros c Hc.
    exists (nth c row NaN). split; [apply nth_error_nth'; lia|]. rewrite (Ec c Hc). clear row E El Ec.
    revert t Hi. induction i as [|i IH]; intros t Hi; destruct (Hval _ t Hi) as (v & E1 & E2);
      rewrite (firstn_S_snoc _ _ (t, v)) by (now apply nth_error_combine); rewrite map_app; cbn [snd map]; rewrite last_known_snoc;
      destruct (raw_rows_cell how key f _ v c E2 Hc) as [(Ew & En)|Hcomb].
    - rewrite En. cbn. apply AV_none. now left.
    - assert (Hcm : window f al 0 <> [] /\ combined (cells_at c (window f al 0)) (nth c v NaN)).
      { destruct Hcomb as [Hs|(Hl2 & name & m & Hn & Hm & ->)].
        - split; [intros Ew; rewrite Ew in Hs; discriminate|]. rewrite Hs. apply H1.
        - split; [intros Ew; rewrite Ew in Hl2; cbn in Hl2; lia|]. apply (H2 name m); [exact Hn|exact Hm|]. unfold cells_at. now rewrite map_length. }
      destruct (nth c v NaN) eqn:En; cbn [is_nan]; try (apply AV_new; [tauto|tauto|discriminate]). cbn. apply AV_none. right. tauto.
    - rewrite En. cbn [is_nan]. apply AV_carried; [now left|].
      assert (S i < length al) by (apply nth_error_Some; congruence). destruct (nth_error al i) as [u|] eqn:Eu; [|apply nth_error_None in Eu; lia]. exact (IH u eq_refl).
    - assert (Hcm : window f al (S i) <> [] /\ combined (cells_at c (window f al (S i))) (nth c v NaN)).
      { destruct Hcomb as [Hs|(Hl2 & name & m & Hn & Hm & ->)].
        - split; [intros Ew; rewrite Ew in Hs; discriminate|]. rewrite Hs. apply H1.
        - split; [intros Ew; rewrite Ew in Hl2; cbn in Hl2; lia|]. apply (H2 name m); [exact Hn|exact Hm|]. unfold cells_at. now rewrite map_length. }
      destruct (nth c v NaN) eqn:En; cbn [is_nan]; try (apply AV_new; [tauto|tauto|discriminate]). apply AV_carried; [right; tauto|].
      assert (S i < length al) by (apply nth_error_Some; congruence). destruct (nth_error al i) as [u|] eqn:Eu; [|apply nth_error_None in Eu; lia]. exact (IH u eq_refl).
  Qed.
End Alignment.
