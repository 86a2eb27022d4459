(** Proofs about the helpers for the metalabeling model. *)
From Coq Require Import String QArith DecimalString DecimalNat.
From Verif Require Import Prelude PreludeFacts Num Series Pipe_Model Pipe_Spec Pipe_Proofs3 Wrap_Model Wrap_Spec Wrap_Proofs2.
Local Open Scope nat_scope.

Lemma append_inj_l p : forall a b, (p ++ a)%string = (p ++ b)%string -> a = b.
Proof. induction p as [|c p IH]; intros a b H; [exact H|]. injection H as H. auto. Qed.
Lemma proba_column_inj i j : proba_column i = proba_column j -> i = j.
Proof.
  intros H. apply append_inj_l in H. apply Unsigned.to_uint_inj.
  assert (E : forall n, NilZero.uint_of_string (NilZero.string_of_uint (Nat.to_uint n)) = Some (Nat.to_uint n)).
  { intros n. apply NilZero.usu. intros E. pose proof (Unsigned.of_to n) as H0. rewrite E in H0. cbn in H0. subst n. discriminate. }
  specialize (E i) as Ei. specialize (E j) as Ej. rewrite H in Ei. congruence.
Qed.
Lemma proba_columns_NoDup k : NoDup (map proba_column (seq 0 k)).
Proof. apply FinFun.Injective_map_NoDup; [intros i j; apply proba_column_inj|apply seq_NoDup]. Qed.

Section Meta.
  Context {A : Type} {HA : Arith A}.
  Notation cell := (ext A).
  Notation frame := (frame A).

  Lemma position_none l k : ~ In k l -> position l k = None.
  Proof.
    induction l as [|x l IH]; intros H; [reflexivity|]. cbn. destruct (String.eqb_spec x k) as [->|N]; [destruct H; now left|].
    rewrite IH; [reflexivity|]. intros H'. apply H. now right.
  Qed.
  Lemma position_nth l : NoDup l ->
    forall (values : list cell), List.length values = List.length l -> forall row, List.length row = List.length l ->
    forall big off, (forall j x, nth_error l j = Some x -> position big x = Some (off + j)) ->
    map (fun p => match position big (fst p) with Some j => nth j (repeat NaN off ++ values) NaN | None => snd p end) (combine l row) = values.
  Proof.
    intros Hn. induction l as [|x l IH]; intros values Lv row Lr big off Hb.
    - destruct values; [reflexivity|discriminate].
    - destruct values as [|v values]; [discriminate|]. destruct row as [|r row]; [discriminate|]. inversion Hn; subst. cbn [combine map fst snd].
      rewrite (Hb 0 x eq_refl). f_equal.
      + rewrite Nat.add_0_r, app_nth2; rewrite repeat_length; [|lia]. now rewrite Nat.sub_diag.
      + transitivity (map (fun p => match position big (fst p) with Some j => nth j (repeat NaN (S off) ++ values) NaN | None => snd p end) (combine l row)).
        * apply map_ext_in. intros [y c] Hy. cbn [fst snd]. apply in_combine_l in Hy. apply In_nth_error in Hy. destruct Hy as [j Hj].
          rewrite (Hb (S j) y Hj). rewrite !app_nth2; rewrite ?repeat_length; try lia. replace (off + S j - off) with (S j) by lia. replace (off + S j - S off) with j by lia. reflexivity.
        * apply IH; auto. intros j y Hj. rewrite (Hb (S j) y Hj). f_equal. lia.
  Qed.
  Lemma position_self l : NoDup l -> forall j x, nth_error l j = Some x -> position l x = Some j.
  Proof.
    induction 1 as [|y l Hy Hn IH]; intros [|j] x H; try discriminate; cbn in *.
    - injection H as ->. now rewrite String.eqb_refl.
    - destruct (String.eqb_spec y x) as [->|N]; [destruct Hy; eapply nth_error_In, H|]. now rewrite (IH j x H).
  Qed.
  Lemma write_row_spec cols names (values row0 extra : list cell) : NoDup names -> (forall c, In c cols -> ~ In c names) ->
    List.length row0 = List.length cols -> List.length extra = List.length names -> List.length values = List.length names ->
    write_row (cols ++ names) names values (row0 ++ extra) = row0 ++ values.
  Proof.
    intros Hn Hd L0 Le Lv. unfold write_row.
    assert (C : combine (cols ++ names) (row0 ++ extra) = combine cols row0 ++ combine names extra).
    { clear -L0. revert row0 L0. induction cols as [|c cols IH]; intros [|r row0] L; try discriminate; [reflexivity|]. cbn. f_equal. apply IH. now injection L. }
    rewrite C, map_app. f_equal.
    - clear -Hd L0. revert row0 L0. induction cols as [|c cols IH]; intros [|r row0] L; try discriminate; [reflexivity|]. cbn [combine map fst snd].
      rewrite position_none by (apply Hd; now left). f_equal. apply IH; [|now injection L]. intros x Hx. apply Hd. now right.
    - apply (position_nth names Hn) with (off := 0); auto. intros j x Hj. now apply position_self.
  Qed.

  Lemma filter_combine_none (l : list Z) (v : list (list cell)) t : ~ In t l -> filter (fun e => Z.eqb (fst e) t) (combine l v) = [].
  Proof.
    revert v. induction l as [|z l IH]; intros v H; [reflexivity|]. destruct v as [|r v]; [reflexivity|]. cbn [combine filter fst].
    destruct (Z.eqb_spec z t) as [->|]; [destruct H; now left|]. apply IH. intros H'. apply H. now right.
  Qed.
  Lemma filter_combine_some (l : list Z) (v : list (list cell)) t r : NoDup l -> In (t, r) (combine l v) -> filter (fun e => Z.eqb (fst e) t) (combine l v) = [(t, r)].
  Proof.
    revert v. induction l as [|z l IH]; intros v Hn H; [destruct H|]. destruct v as [|x v]; [destruct H|]. inversion Hn as [|? ? H1 H2]; subst. cbn [combine filter fst].
    destruct H as [H|H].
    - injection H as -> ->. rewrite Z.eqb_refl. f_equal. now apply filter_combine_none.
    - destruct (Z.eqb_spec z t) as [->|]; [|now apply IH]. destruct H1. eapply in_combine_l, H.
  Qed.

  Variables (X0 : frame) (k : nat).
  Let names := map proba_column (seq 0 k).
  Hypotheses (Hk : 1 <= k) (Hinc : increasingZ (index X0)) (Hwide : Forall (fun r => List.length (snd r) = List.length (columns X0)) (rows X0))
    (Hnew : forall i, ~ In (proba_column i) (columns X0)).

  (** The frame after some folds. *)
  Definition holds (folds : list (fold (A := A))) (R : frame) : Prop :=
    columns R = columns X0 ++ names /\ index R = index X0 /\
    forall t row, In (t, row) (rows R) -> exists row0 extra, row = row0 ++ extra /\ In (t, row0) (rows X0) /\ List.length extra = k /\
      (given folds t extra \/ (forall f, In f folds -> ~ In t (fst f)) /\ extra = repeat NaN k).

  Lemma names_length : List.length names = k. Proof. unfold names. now rewrite map_length, seq_length. Qed.
  Lemma covered (f : fold (A := A)) t : proper_fold k f -> In t (fst f) -> exists row, In (t, row) (combine (fst f) (snd f)) /\ List.length row = k.
  Proof.
    intros [L Hw] Ht. apply In_nth_error in Ht. destruct Ht as [i Hi]. destruct (nth_error (snd f) i) as [row|] eqn:E.
    - exists row. split; [|rewrite Forall_forall in Hw; apply Hw; eapply nth_error_In, E]. clear -Hi E. revert i Hi E. generalize (fst f), (snd f).
      induction l as [|z l IH]; intros [|r v] [|i] H1 H2; try discriminate; cbn in *; [injection H1 as ->; injection H2 as ->; now left|right; eauto].
    - apply nth_error_None in E. assert (i < List.length (fst f)) by (apply nth_error_Some; congruence). lia.
  Qed.

  (** The first fold adds the columns. *)
  Lemma first_fold p Xv (yv : list (Z * cell)) (f : fold (A := A)) : p (map snd (rows Xv)) = Ok (k, snd f) -> map fst yv = fst f -> proper_fold k f -> NoDup (fst f) ->
    (forall t, In t (fst f) -> In t (index X0)) -> exists R, get_pred_proba_features (Some p) X0 Xv yv = Ok R /\ holds [f] R.
  Proof.
    intros Ep Ey Hf Hn Hsub. unfold get_pred_proba_features. rewrite Ep, Ey. cbn [bind fst snd]. change (proba_columns k) with names.
    assert (E : forallb (fun n => existsb (String.eqb n) (columns X0)) names = false).
    { unfold names. destruct k as [|k']; [lia|]. cbn [seq map forallb].
      destruct (existsb (String.eqb (proba_column 0)) (columns X0)) eqn:E; [|reflexivity]. apply existsb_exists in E. destruct E as (c & Hc & E). apply String.eqb_eq in E. subst. now apply Hnew in Hc. }
    rewrite E. rewrite make_series_ok by (destruct Hf as [L _]; exact L). cbn [bind].
    set (b := {| columns := names; rows := combine (fst f) (snd f) |}).
    assert (Ib : index b = fst f).
    { unfold index. cbn [rows b]. destruct Hf as [L _]. clear -L. revert L. generalize (fst f), (snd f). induction l as [|z l IH]; intros [|r v] L; try discriminate; [reflexivity|]. cbn. f_equal. apply IH. now injection L. }
    assert (Na : NoDup (index X0)) by (now apply increasingZ_NoDup). assert (Nb : NoDup (index b)) by (now rewrite Ib).
    destruct (concat2_frame X0 b Na Nb) as (g & Eg & Cg & Ig & (Hg1 & Hg2 & Hg3)). exists g. split; [exact Eg|].
    split; [exact Cg|]. split.
    - unfold concat2 in Eg. destruct (same_index (index X0) (index b)) eqn:Es; [apply Ig; now apply same_index_spec|].
      destruct (_ && _)%bool; [|discriminate]. injection Eg as <-. unfold index at 1. cbn [rows]. rewrite map_map. cbn [fst]. rewrite map_id.
      apply increasingZ_ext; [apply np_uniqueZ_inc|exact Hinc|]. intros t. rewrite np_uniqueZ_In, in_app_iff, Ib. split; [intros [H|H]; auto|auto].
    - intros t row Hr. assert (Ht : In t (index X0)).
      { assert (Hi : In t (index g)) by (apply in_map_iff; now exists (t, row)). apply Hg2 in Hi. rewrite Ib in Hi. destruct Hi; auto. }
      rewrite (Hg3 t row Hr). exists (row_at X0 t), (row_at b t). split; [reflexivity|]. split; [now apply In_row_at|].
      destruct (in_dec Z.eq_dec t (fst f)) as [Hi|Hi].
      + destruct (covered f t Hf Hi) as (r & Hr' & Lr). rewrite (row_at_In b t r Nb Hr'). split; [exact Lr|]. left. exists f. split; [now left|exact Hr'].
      + rewrite (row_at_none b t) by (now rewrite Ib). cbn [b columns]. rewrite repeat_length, names_length. split; [reflexivity|]. right.
        split; [|reflexivity]. intros f' [<-|[]]. exact Hi.
  Qed.

  (** The others fill them in. *)
  Lemma next_fold p Xv (yv : list (Z * cell)) (f : fold (A := A)) past R : holds past R -> p (map snd (rows Xv)) = Ok (k, snd f) -> map fst yv = fst f -> proper_fold k f -> NoDup (fst f) ->
    (forall t, In t (fst f) -> In t (index X0)) -> (forall f' t, In f' past -> In t (fst f') -> ~ In t (fst f)) ->
    exists R', get_pred_proba_features (Some p) R Xv yv = Ok R' /\ holds (past ++ [f]) R'.
  Proof.
    intros (HC & HI & HR) Ep Ey Hf Hn Hsub Hdis. unfold get_pred_proba_features. rewrite Ep, Ey. cbn [bind fst snd]. change (proba_columns k) with names.
    assert (E : forallb (fun n => existsb (String.eqb n) (columns R)) names = true).
    { apply forallb_forall. intros n Hi. apply existsb_exists. exists n. split; [rewrite HC; apply in_app_iff; now right|apply String.eqb_refl]. }
    rewrite E. unfold write_rows.
    assert (E2 : forallb (fun t => existsb (Z.eqb t) (index R)) (fst f) = true).
    { apply forallb_forall. intros t Ht. apply existsb_exists. exists t. split; [rewrite HI; auto|apply Z.eqb_refl]. }
    rewrite E2. cbn [negb raise_if bind]. rewrite make_series_ok by (destruct Hf as [L _]; exact L). cbn [bind].
    eexists. split; [reflexivity|]. split; [exact HC|]. split.
    - rewrite <- HI. unfold index. cbn [rows]. rewrite map_map. apply map_ext. intros r. destruct (filter _ _) as [|]; reflexivity.
    - intros t row H. cbn [rows] in H. apply in_map_iff in H. destruct H as ([t' row'] & Ex & Hin). cbn [fst snd] in Ex.
      destruct (HR t' row' Hin) as (row0 & extra & Er & Hr0 & Le & Hg).
      destruct (in_dec Z.eq_dec t' (fst f)) as [Hi|Hi].
      + destruct (covered f t' Hf Hi) as (r & Hr & Lr). rewrite (filter_combine_some _ _ _ _ Hn Hr) in Ex. cbn [snd] in Ex. injection Ex as <- <-.
        exists row0, r. rewrite HC, Er. rewrite write_row_spec; auto using proba_columns_NoDup.
        * split; [reflexivity|]. split; [exact Hr0|]. split; [exact Lr|]. left. exists f. split; [apply in_app_iff; right; now left|exact Hr].
        * unfold names. apply proba_columns_NoDup.
        * intros c Hc Hc'. unfold names in Hc'. apply in_map_iff in Hc'. destruct Hc' as (i & <- & _). now apply Hnew in Hc.
        * rewrite Forall_forall in Hwide. exact (Hwide _ Hr0).
        * now rewrite names_length.
        * now rewrite names_length.
      + rewrite (filter_combine_none _ _ _ Hi) in Ex. injection Ex as <- <-. exists row0, extra. split; [exact Er|]. split; [exact Hr0|]. split; [exact Le|].
        destruct Hg as [(f' & Hf' & Hin')|[Hno He]].
        * left. exists f'. split; [apply in_app_iff; now left|exact Hin'].
        * right. split; [|exact He]. intros f' Hf'. apply in_app_iff in Hf'. destruct Hf' as [Hf'|[<-|[]]]; auto.
  Qed.

  Lemma all_folds calls folds : Forall2 (validates k) calls folds -> calls <> [] -> Forall (proper_fold k) folds -> NoDup (concat (map fst folds)) ->
    (forall f t, In f folds -> In t (fst f) -> In t (index X0)) ->
    exists R, foldM (fun X c => get_pred_proba_features (Some (fst (fst c))) X (snd (fst c)) (snd c)) X0 calls = Ok R /\ holds folds R.
  Proof.
    intros Hc Hne Hp Hn Hsub. destruct Hc as [|c f calls folds [Ec Ey] Hc]; [contradiction|]. inversion Hp as [|? ? Hpf Hps]; subst.
    cbn [map concat] in Hn. apply NoDup_app_iff in Hn. destruct Hn as (Hn1 & Hn2 & Hn3).
    destruct (first_fold _ _ _ f Ec Ey Hpf Hn1 (fun t => Hsub f t (or_introl eq_refl))) as (R & E & HR). cbn [foldM]. rewrite E. cbn [bind].
    assert (Hrest : forall past R, holds past R -> (forall f' t, In f' past -> In t (fst f') -> ~ In t (concat (map fst folds))) ->
      exists R', foldM (fun X c => get_pred_proba_features (Some (fst (fst c))) X (snd (fst c)) (snd c)) R calls = Ok R' /\ holds (past ++ folds) R').
    { clear R E HR Hn3 Ec Ey Hpf Hn1 Hp.
      assert (Hsub' : forall f t, In f folds -> In t (fst f) -> In t (index X0)) by (intros f' t Hf'; apply Hsub; now right). clear Hsub.
      induction Hc as [|c' f' calls folds [Ec Ey] Hc IH]; intros past R HR Hd.
      - exists R. rewrite app_nil_r. auto.
      - inversion Hps as [|? ? Hpf Hps']; subst. cbn [map concat] in Hn2. apply NoDup_app_iff in Hn2. destruct Hn2 as (Hn1 & Hn2 & Hn3).
        destruct (next_fold _ _ _ f' past R HR Ec Ey Hpf Hn1 (fun t => Hsub' f' t (or_introl eq_refl))) as (R' & E & HR').
        { intros f1 t Hf1 Ht H. apply (Hd f1 t Hf1 Ht). cbn [map concat]. apply in_app_iff. now left. }
        cbn [foldM]. rewrite E. cbn [bind]. replace (past ++ f' :: folds) with ((past ++ [f']) ++ folds) by (now rewrite <- app_assoc).
        apply (IH); auto.
        + discriminate.
        + intros f1 t Hf1. apply Hsub'. now right.
        + intros f1 t Hf1 Ht H. apply in_app_iff in Hf1. destruct Hf1 as [Hf1|[<-|[]]].
          * apply (Hd f1 t Hf1 Ht). cbn [map concat]. apply in_app_iff. now right.
          * exact (Hn3 t Ht H). }
    destruct (Hrest [f] R HR) as (R' & E' & HR'); [|now exists R'].
    intros f' t [<-|[]] Ht. exact (Hn3 t Ht).
  Qed.
End Meta.

(** A missing predict_proba. *)
Lemma no_predict_proba {A} (X Xv : frame A) yv : get_pred_proba_features None X Xv yv = Err AttributeError.
Proof. reflexivity. Qed.

(** * Metalabels *)
Lemma insert_u_Q x l y : In y (insert_u Qcompare x l) -> y = x \/ In y l.
Proof.
  induction l as [|z l IH]; cbn; [intuition|]. destruct (x ?= z)%Q; cbn; intuition.
Qed.
Lemma insert_u_Q_in x l : exists y, In y (insert_u Qcompare x l) /\ (y == x)%Q.
Proof.
  induction l as [|z l IH]; cbn; [exists x; split; [now left|reflexivity]|]. destruct (x ?= z)%Q eqn:E.
  - exists z. split; [now left|]. apply Qeq_alt in E. now symmetry.
  - exists x. split; [now left|reflexivity].
  - destruct IH as (y & Hy & Ey). exists y. split; [now right|exact Ey].
Qed.
Lemma insert_u_Q_keeps x l y : In y l -> In y (insert_u Qcompare x l).
Proof. induction l as [|z l IH]; cbn; [easy|]. destruct (x ?= z)%Q; cbn; intuition. Qed.
Lemma sort_unique_Q_in l x : In x l -> exists y, In y (sort_unique Qcompare l) /\ (y == x)%Q.
Proof.
  induction l as [|z l IH]; [easy|]. cbn [sort_unique fold_right]. intros [->|H]; [apply insert_u_Q_in|].
  destruct (IH H) as (y & Hy & Ey). exists y. split; [now apply insert_u_Q_keeps|exact Ey].
Qed.
Lemma sort_unique_Q_from l y : In y (sort_unique Qcompare l) -> In y l.
Proof. induction l as [|z l IH]; [easy|]. cbn [sort_unique fold_right]. intros H. apply insert_u_Q in H. destruct H as [->|H]; [now left|right; auto]. Qed.
Lemma sort_unique_one l v : l <> [] -> (forall x, In x l -> x == v)%Q -> exists v', sort_unique Qcompare l = [v'] /\ (v' == v)%Q.
Proof.
  induction l as [|x l IH]; intros Hne H; [contradiction|]. destruct l as [|z l].
  - exists x. split; [reflexivity|]. apply H. now left.
  - destruct IH as (v' & E & Ev); [discriminate|intros; apply H; now right|]. change (sort_unique Qcompare (x :: z :: l)) with (insert_u Qcompare x (sort_unique Qcompare (z :: l))). rewrite E.
    cbn [insert_u]. assert (Ex : (x ?= v')%Q = Eq). { apply Qeq_alt. rewrite Ev. apply H. now left. } rewrite Ex. now exists v'.
Qed.
Lemma metalabels y : 
  (check_y_metalabel y = Some "incorrect"%string <-> y <> [] /\ forall x, In x y -> x == 0)%Q /\
  (check_y_metalabel y = Some "correct"%string <-> y <> [] /\ exists v, ~ v == 0 /\ forall x, In x y -> x == v)%Q /\
  (check_y_metalabel y = None <-> y = [] \/ exists a b, In a y /\ In b y /\ ~ a == b)%Q.
Proof.
  assert (ONE : forall v, sort_unique Qcompare y = [v] -> y <> [] /\ forall x, In x y -> (x == v)%Q).
  { intros v E. split; [intros ->; discriminate|]. intros x Hx. destruct (sort_unique_Q_in y x Hx) as (z & Hz & Ez). rewrite E in Hz. destruct Hz as [<-|[]]. now symmetry. }
  unfold check_y_metalabel. split; [|split].
  - split.
    + destruct (sort_unique Qcompare y) as [|v [|]] eqn:E; try discriminate. destruct (Qeq_bool v 0) eqn:Ev; [|discriminate]. intros _.
      destruct (ONE v eq_refl) as [H1 H2]. split; [exact H1|]. intros x Hx. rewrite (H2 x Hx). now apply Qeq_bool_iff.
    + intros [H1 H2]. destruct (sort_unique_one y 0 H1 H2) as (v & -> & Ev). apply Qeq_bool_iff in Ev. now rewrite Ev.
  - split.
    + destruct (sort_unique Qcompare y) as [|v [|]] eqn:E; try discriminate. destruct (Qeq_bool v 0) eqn:Ev; [discriminate|]. intros _.
      destruct (ONE v eq_refl) as [H1 H2]. split; [exact H1|]. exists v. split; [|exact H2]. now apply Qeq_bool_neq.
    + intros (H1 & v & Hv & H2). destruct (sort_unique_one y v H1 H2) as (v' & -> & Ev). destruct (Qeq_bool v' 0) eqn:E0; [|reflexivity].
      apply Qeq_bool_iff in E0. destruct Hv. now rewrite <- Ev.
  - split.
    + destruct (sort_unique Qcompare y) as [|a [|b l]] eqn:E; intros H; try discriminate.
      * left. destruct y as [|x y]; [reflexivity|]. destruct (sort_unique_Q_in (x :: y) x (or_introl eq_refl)) as (z & Hz & _). rewrite E in Hz. destruct Hz.
      * right. exists a, b. split; [apply sort_unique_Q_from; rewrite E; now left|]. split; [apply sort_unique_Q_from; rewrite E; right; now left|].
        assert (SS : StronglySorted Qlt (sort_unique Qcompare y)).
        { clear. induction y as [|x y IH]; [constructor|]. unfold sort_unique in *. cbn [fold_right]. revert IH. generalize (fold_right (insert_u Qcompare) [] y). clear.
          intros l Hl. induction Hl as [|z l' Hl IH Hz]; cbn [insert_u]; [repeat constructor|]. destruct (x ?= z)%Q eqn:E.
          - now constructor.
          - apply Qlt_alt in E. constructor; [now constructor|]. constructor; [exact E|]. rewrite Forall_forall in *. intros w Hw. eapply Qlt_trans; [exact E|]. now apply Hz.
          - apply Qgt_alt in E. constructor; [exact IH|]. rewrite Forall_forall in *. intros w Hw. apply insert_u_Q in Hw. destruct Hw as [->|Hw]; [exact E|now apply Hz]. }
        rewrite E in SS. inversion SS as [|? ? _ HF]; subst. inversion HF as [|? ? Hab _]; subst. intros Eab. rewrite Eab in Hab. now apply Qlt_irrefl in Hab.
    + intros [->|(a & b & Ha & Hb & N)]; [reflexivity|]. destruct (sort_unique Qcompare y) as [|v [|]] eqn:E; try reflexivity.
      destruct (ONE v eq_refl) as [_ H]. destruct N. now rewrite (H a Ha), (H b Hb).
Qed.
