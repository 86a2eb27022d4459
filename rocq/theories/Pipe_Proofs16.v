(** When a data set can be made, and the kinds of the errors of alignment. *)
From Coq Require Import String.
From Verif Require Import Prelude PreludeFacts Num Series Pipe_Model Pipe_Spec Pipe_Spec3 Pipe_Proofs1 Pipe_Proofs2 Pipe_Proofs3 Pipe_Proofs4 Pipe_Proofs14.
Open Scope nat_scope.

Section Errors.
  Context {A : Type} {HA : Arith A}.
  Notation cell := (ext A).

  Lemma mapM_error_kind {X Y} (f : X -> result Y) l e : (forall x e', In x l -> f x = Err e' -> e' = e) -> is_ok (mapM f l) = false -> mapM f l = Err e.
  Proof.
    induction l as [|x l IH]; intros H Hn; [discriminate|]. cbn in *. destruct (f x) as [y|e'] eqn:E; cbn [bind] in *.
    - destruct (mapM f l) as [ys|e']; cbn [bind] in *; [discriminate|]. apply IH; [|reflexivity]. intros z e'' Hz. apply H. now right.
    - f_equal. apply (H x); [now left|exact E].
  Qed.

  Lemma lookup_error {V} (d : dict V) k e : lookup d k = Err e -> e = KeyError.
  Proof. induction d as [|[k' v] d IH]; cbn; [congruence|]. destruct (String.eqb k' k); [discriminate|exact IH]. Qed.
  Lemma align_method_error name e : @align_method A HA name = Err e -> e = KeyError.
  Proof. unfold align_method. destruct (String.eqb name "mean"); [discriminate|]. destruct (String.eqb name "min"); [discriminate|]. destruct (String.eqb name "max"); [discriminate|congruence]. Qed.

  Theorem align_errors how key al (f : frame A) : increasingZ al -> after_1700 al -> after_1700 (index f) -> columns f <> [] ->
    (rows f = [] \/ al = [] -> align_frame how key al f = Err IndexError) /\
    (rows f <> [] -> al <> [] -> (exists i, 2 <= length (window f al i)) -> (forall name, lookup how key = Ok name -> ~ In name ["mean"; "min"; "max"]%string) -> align_frame how key al f = Err KeyError).
  Proof.
    intros Hi Ha Hf Hc. split.
    - unfold align_frame. intros [->| ->]; [reflexivity|]. now destruct (rows f).
    - intros Hr Hal Hw Hm. destruct (is_ok (align_frame how key al f)) eqn:E.
      + apply (align_accepts how key al f Hi Ha Hf Hc) in E. destruct E as (_ & _ & E). destruct (E Hw) as (name & En & Hn). exfalso. exact (Hm name En Hn).
      + rewrite align_frame_windows in E |- * by assumption.
        assert (Hk : mapM (raw how key f) (combine (year_1700 :: al) al) = Err KeyError); [|now rewrite Hk].
        apply mapM_error_kind; [|destruct (mapM _ _); [discriminate|reflexivity]]. intros x e _. unfold raw, raw_rows. destruct (Nat.eqb _ 0); [discriminate|].
        destruct (between _ _ _) as [|r1 [|r2 rest]]; [discriminate|discriminate|]. destruct (lookup how key) as [name|e'] eqn:El; cbn [bind]; [|intros [= <-]; now apply lookup_error in El].
        destruct (align_method name) as [g|e'] eqn:Eg; cbn [bind]; [discriminate|]. intros [= <-]. now apply align_method_error in Eg.
  Qed.

  Lemma check_X_y_ok (X : frame A) y : rows X <> [] -> columns X <> [] -> length (rows X) = length y -> (forall t row x, In (t, row) (rows X) -> In x row -> exists v, x = Fin v) ->
    (forall t x, In (t, x) y -> exists v, x = Fin v) -> check_X_y X y = Ok tt.
  Proof.
    intros H1 H2 H3 H4 H5. unfold check_X_y. replace (Nat.eqb (length (rows X)) 0) with false by (destruct (rows X); [congruence|reflexivity]). replace (Nat.eqb (length (columns X)) 0) with false by (destruct (columns X); [congruence|reflexivity]).
    rewrite H3, Nat.eqb_refl. cbn [orb negb]. replace (forallb _ (rows X)) with true; [replace (forallb _ y) with true; [reflexivity|]|]; symmetry; apply forallb_forall.
    - intros [t x] Hx. destruct (H5 t x Hx) as (v & ->). reflexivity.
    - intros [t r] Hr. cbn [snd]. apply forallb_forall. intros x Hx. destruct (H4 t r x Hr Hx) as (v & ->). reflexivity.
  Qed.
  Lemma check_X_y_error (X : frame A) y : is_ok (check_X_y X y) = false -> check_X_y X y = Err ValueError.
  Proof. unfold check_X_y. destruct (_ || _)%bool; [reflexivity|discriminate]. Qed.

  Lemma loc_error {V} (l : list (Z * V)) ts : is_ok (loc l ts) = false -> loc l ts = Err KeyError.
  Proof.
    unfold loc. intros H. rewrite (mapM_error_kind _ ts KeyError); [reflexivity| |destruct (mapM _ ts); [discriminate|reflexivity]]. intros t e _. destruct (filter _ l); [congruence|discriminate].
  Qed.

  Lemma labelled (y : list (Z * cell)) t : In t (map fst (dropna_s y)) <-> exists lb, In (t, lb) y /\ lb <> NaN.
  Proof.
    unfold dropna_s. rewrite In_key. split.
    - intros (v & Hv). apply filter_In in Hv. exists v. split; [tauto|]. intros ->. now destruct Hv.
    - intros (v & Hv & Hn). exists v. apply filter_In. split; [exact Hv|]. now destruct v.
  Qed.


  Lemma parts_ok (P : dict (frame A)) y : is_ok (mapM (fun f => loc_f f (map fst (dropna_s y))) (map snd P)) = true <-> all_times P y.
  Proof.
    rewrite mapM_ok_iff. unfold all_times. split.
    - intros H t x f Hx Hn Hf. specialize (H f Hf). unfold loc_f in H. assert (Hl : is_ok (loc (rows f) (map fst (dropna_s y))) = true) by (destruct (loc _ _); [reflexivity|discriminate]).
      apply (proj1 (loc_ok _ _) Hl t), labelled. now exists x.
    - intros H f Hf. unfold loc_f. assert (Hl : is_ok (loc (rows f) (map fst (dropna_s y))) = true); [|destruct (loc _ _); [reflexivity|discriminate]].
      apply loc_ok. intros t Ht. apply labelled in Ht. destruct Ht as (x & Hx & Hn). exact (H t x f Hx Hn Hf).
  Qed.
  Lemma dataset_time_missing (P : dict (frame A)) y : ~ all_times P y -> align_X_dict_and_y P y true = Err KeyError.
  Proof.
    intros H. unfold align_X_dict_and_y. rewrite (mapM_error_kind _ (map snd P) KeyError); [reflexivity| |].
    - intros f e _. unfold loc_f. destruct (loc (rows f) _) as [r|e'] eqn:E; [discriminate|]. cbn [bind]. intros [= <-]. assert (E' : loc (rows f) (map fst (dropna_s y)) = Err KeyError) by (apply loc_error; now rewrite E). congruence.
    - apply not_true_is_false. intros E. apply H. now apply parts_ok.
  Qed.

  (** The frame that is checked. *)
  Lemma dataset_frame (P : dict (frame A)) y : good_frames P -> P <> [] -> NoDup (map fst y) -> all_times P y ->
    exists X' y', align_X_dict_and_y P y true = (do _ <- check_X_y X' y' ;; Ok (X', y')) /\ columns X' <> [] /\ NoDup (index X') /\ (forall t, In t (index X') <-> usable (map snd P) y t) /\
      (forall t row, In (t, row) (rows X') -> made_of (map snd P) t row) /\ map fst y' = index X' /\ (forall t x, In (t, x) y' -> In (t, x) y /\ x <> NaN).
  Proof.
    unfold good_frames. set (l := map snd P). intros Hg HPne Hy Hall.
    pose proof (proj2 (parts_ok P y) Hall) as Hok. unfold align_X_dict_and_y. fold l in Hok |- *.
    set (ts := map fst (dropna_s y)) in *. assert (Hts : NoDup ts) by (now apply NoDup_filter_key).
    destruct (mapM (fun f => loc_f f ts) l) as [parts|] eqn:Em; [|discriminate]. cbn [bind]. clear Hok. apply mapM_Ok in Em.
    assert (Hp : Forall2 (fun f g : frame A => columns g = columns f /\ index g = ts /\ (forall t, In t ts -> In t (index f)) /\ forall e, In e (rows g) -> In e (rows f)) l parts).
    { revert Hg. induction Em as [|f g l' parts' Hf Hl IH]; intros Hg; [constructor|]. inversion Hg as [|? ? G1 G2]; subst. constructor; [|now apply IH].
      unfold loc_f in Hf. destruct (loc (rows f) ts) as [r|] eqn:El; [|discriminate]. injection Hf as <-. cbn [columns rows]. split; [reflexivity|].
      split; [exact (loc_NoDup _ _ _ (proj1 G1) El)|]. split; [apply loc_ok; now rewrite El|]. now apply loc_ge in El. }
    assert (Hne : parts <> []). { intros ->. inversion Hp as [E|]. unfold l in E. destruct P; [congruence|discriminate]. }
    assert (HN : Forall (fun f : frame A => NoDup (index f)) parts).
    { clear -Hp Hts. induction Hp as [|f g ? ? (_ & E & _)]; constructor; [now rewrite E|assumption]. }
    destruct (concat_outer_frame parts Hne HN) as (X & E0 & C0 & I0 & F0). rewrite E0. cbn [bind].
    assert (HI : index X = ts) by (apply I0; clear -Hp; induction Hp as [|f g ? ? (_ & E & _)]; constructor; assumption).
    assert (HR : forall t, In t ts -> concat (map (fun f => row_at f t) parts) = concat (map (fun f => row_at f t) l)).
    { intros t Ht. clear -Hp Hg HN Ht. revert Hg HN. induction Hp as [|f g l' ps (Ec & Ei & Hin & Hsub) Hps IH]; intros Hg HN; [reflexivity|].
      inversion Hg as [|? ? G1 G2]; subst. inversion HN as [|? ? N1 N2]; subst. cbn. rewrite (IH G2 N2). f_equal.
      symmetry. apply row_at_In; [tauto|]. apply Hsub. apply In_row_at; [exact N1|]. rewrite Ei. exact Ht. }
    pose proof (dropna_frame X _ _ F0) as (D1 & D2 & D3).
    assert (Hin : forall t, In t (index (dropna X)) <-> In t ts /\ ~ In NaN (concat (map (fun f => row_at f t) l))).
    { intros t. rewrite D2. pose proof (proj1 (proj2 F0) t) as Ht. rewrite HI in Ht. rewrite <- Ht. split; intros (H1 & H2); (split; [exact H1|]); [rewrite <- HR|rewrite HR]; assumption. }
    assert (Hcomp : forall t, ~ In NaN (concat (map (fun f => row_at f t) l)) <-> Forall (complete_at t) l).
    { intros t. rewrite concat_map_NaN. rewrite Forall_forall in *. split.
      - intros H f Hf. apply complete_at_row_at; [apply Hg, Hf|apply Hg, Hf|]. intros Hn. apply H. now exists f.
      - intros H (f & Hf & Hn). specialize (H f Hf). apply complete_at_row_at in H; [contradiction|apply Hg, Hf|apply Hg, Hf]. }
    assert (HL : is_ok (loc y (index (dropna X))) = true).
    { apply loc_ok. intros t Ht. apply Hin in Ht. destruct Ht as (Ht & _). unfold ts in Ht. apply labelled in Ht. destruct Ht as (v & Hv & _). now apply (in_map fst) in Hv. }
    destruct (loc y (index (dropna X))) as [ya|] eqn:El; [|discriminate]. cbn [bind]. exists (dropna X), ya. split; [reflexivity|].
    pose proof (loc_NoDup _ _ _ Hy El) as Eya. split; [|split; [exact D1|split; [|split; [|split; [exact Eya|]]]]].
    - cbn [dropna columns]. rewrite C0. clear -Hp Hg Hne. destruct Hp as [|f g l ps (E & _) _]; [congruence|]. inversion Hg as [|? ? (_ & G) _]; subst. cbn. rewrite E. destruct (columns f); [congruence|discriminate].
    - intros t. rewrite Hin, Hcomp. unfold ts. rewrite labelled. reflexivity.
    - intros t row Hr. assert (Ht : In t (index (dropna X))) by (now apply (in_map fst) in Hr). apply Hin in Ht.
      rewrite (D3 t row Hr), HR by tauto. apply made_of_row_at; [exact Hg|]. apply Hcomp. tauto.
    - intros t x Hx. assert (Hxy : In (t, x) y) by (now apply (proj2 (proj2 (loc_ge _ _ _ El)))). split; [exact Hxy|]. assert (Ht : In t (index (dropna X))) by (rewrite <- Eya; now apply (in_map fst) in Hx).
      apply Hin in Ht. destruct Ht as (Ht & _). unfold ts in Ht. apply labelled in Ht. destruct Ht as (v & Hv & Hn). now rewrite (NoDup_key_eq y t x v Hy Hxy Hv).
  Qed.


  Lemma made_of_In (l : list (frame A)) t row x : made_of l t row -> In x row -> exists f r, In f l /\ In (t, r) (rows f) /\ In x r.
  Proof.
    intros (parts & -> & H) Hx. apply in_concat in Hx. destruct Hx as (r & Hr & Hx). revert r Hr Hx. induction H as [|f r0 l parts Hf H IH]; intros r Hr Hx; [destruct Hr|].
    destruct Hr as [->|Hr]; [exists f, r; split; [now left|]; auto|]. destruct (IH r Hr Hx) as (g & r' & Hg & Hrest). exists g, r'. split; [now right|exact Hrest].
  Qed.
  Lemma In_made_of (l : list (frame A)) t row f r x : Forall (fun f => NoDup (index f)) l -> made_of l t row -> In f l -> In (t, r) (rows f) -> In x r -> In x row.
  Proof.
    intros HN (parts & -> & H) Hf Hr Hx. apply in_concat. revert HN Hf. induction H as [|g r0 l parts Hg H IH]; intros HN Hf; [destruct Hf|]. inversion HN as [|? ? N1 N2]; subst.
    destruct Hf as [->|Hf]; [exists r0; split; [now left|]; now rewrite (NoDup_key_eq _ t r0 r N1 Hg Hr)|]. destruct (IH N2 Hf) as (z & Hz & Hxz). exists z. split; [now right|exact Hxz].
  Qed.
  Lemma labels_finite (y : list (Z * cell)) t x : labels_ok y = true -> In (t, x) y -> x <> NaN -> exists v, x = Fin v.
  Proof.
    unfold labels_ok, dropna_s. intros H Hx Hn. rewrite forallb_forall in H. specialize (H (t, x)). rewrite filter_In in H. cbn [snd] in H. destruct x as [v| | |]; [now exists v| | |congruence]; specialize (H (conj Hx eq_refl)); discriminate.
  Qed.

  Theorem dataset_accepts (p : pipeline A) X y P M : features_of p X = Ok (P, M) -> good_frames P -> NoDup (map fst y) -> labels_ok y = true ->
    (is_ok (create_dataset_primary p X y true) = true <-> P <> [] /\ all_times P y /\ (exists t, usable (map snd P) y t) /\ finite_features P y) /\
    (~ all_times P y -> create_dataset_primary p X y true = Err KeyError) /\
    (all_times P y -> is_ok (create_dataset_primary p X y true) = false -> create_dataset_primary p X y true = Err ValueError).
  Proof.
    intros Hf HP Hy Hl. unfold create_dataset_primary. rewrite Hl, Hf. cbn [negb raise_if bind fst].
    destruct P as [|kf P'] eqn:EP.
    { assert (E : align_X_dict_and_y [] y true = Err ValueError) by reflexivity. rewrite E. cbn [is_ok]. split; [|split].
      - split; [discriminate|]. intros (H & _). congruence.
      - intros H. exfalso. apply H. intros t x f _ _ [].
      - reflexivity. }
    rewrite <- EP in *. assert (HPne : P <> []) by (rewrite EP; discriminate). clear EP kf P'.
    assert (HN : Forall (fun f : frame A => NoDup (index f)) (map snd P)) by now apply good_NoDups.
    split; [|split; [exact (dataset_time_missing P y)|]].
    - split.
      + intros H. assert (Hall : all_times P y). { apply parts_ok. unfold align_X_dict_and_y in H. destruct (mapM _ (map snd P)); [reflexivity|discriminate]. }
        destruct (dataset_frame P y HP HPne Hy Hall) as (X' & y' & E & C & N & T & R & I & L). rewrite E in H.
        destruct (check_X_y X' y') as [u|] eqn:Ec; [|discriminate]. apply check_X_y_spec in Ec. destruct Ec as (H1 & _ & _ & H4 & _).
        split; [exact HPne|]. split; [exact Hall|]. split.
        * destruct (rows X') as [|[t r] rs] eqn:Er; [congruence|]. exists t. apply T. unfold index. rewrite Er. now left.
        * intros t f row x Hu Hin Hrow Hx. apply T in Hu. pose proof (In_row_at X' t N Hu) as Hr. apply (H4 t (row_at X' t) x Hr). exact (In_made_of (map snd P) t (row_at X' t) f row x HN (R _ _ Hr) Hin Hrow Hx).
      + intros (_ & Hall & (t0 & Ht0) & Hfin). destruct (dataset_frame P y HP HPne Hy Hall) as (X' & y' & E & C & N & T & R & I & L). rewrite E, check_X_y_ok; [reflexivity| |exact C| | |].
        * intros Er. apply T in Ht0. unfold index in Ht0. rewrite Er in Ht0. destruct Ht0.
        * apply (f_equal (@length Z)) in I. unfold index in I. rewrite !map_length in I. now symmetry.
        * intros t row x Hr Hx. destruct (made_of_In _ _ _ _ (R t row Hr) Hx) as (f & r & Hin & Hr' & Hx'). apply (Hfin t f r x); [|exact Hin|exact Hr'|exact Hx']. apply T. now apply (in_map fst) in Hr.
        * intros t x Hx. destruct (L t x Hx) as (Hxy & Hn). exact (labels_finite y t x Hl Hxy Hn).
    - intros Hall Hn. destruct (dataset_frame P y HP HPne Hy Hall) as (X' & y' & E & _). rewrite E in Hn |- *. rewrite check_X_y_error; [reflexivity|]. destruct (check_X_y X' y'); [discriminate|reflexivity].
  Qed.
End Errors.
