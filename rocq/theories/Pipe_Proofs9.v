(** Dictionaries of features, labels, and the greatest probability, over the rationals. *)
From Coq Require Import String QArith Lqa.
From Verif Require Import Prelude PreludeFacts Num QSum Pipe_Model Pipe_Spec Pipe_Proofs1 Pipe_Proofs2 Pipe_Proofs3 Pipe_Proofs4.
Open Scope nat_scope.

Lemma align_dict_entries (p : pipeline Q) lead d d' : increasingZ (index lead) -> after_1700 (index lead) -> fine d ->
  align_dict p (index lead) d = Ok d' -> Forall2 (aligned_entry p lead) d d'.
Proof.
  intros I F Hf. unfold align_dict. revert d'. induction Hf as [|[k f] d (Hp & Ha) Hf IH]; intros d' H; cbn [mapM] in H.
  - injection H as <-. constructor.
  - cbn [fst snd] in *. match type of H with bind ?c _ = _ => destruct c as [x|] eqn:Ex; [|discriminate] end. cbn [bind] in H. destruct (mapM _ d) as [r|]; [|discriminate]. injection H as <-.
    constructor; [|now apply IH]. unfold aligned_entry. cbn [fst snd]. destruct (String.eqb_spec k (align_on p)) as [E|E].
    + injection Ex as <-. cbn. split; [reflexivity|]. split; [reflexivity|]. intros; contradiction.
    + destruct (align_frame (align_how p) k (index lead) f) as [g|] eqn:Eg; [|discriminate]. injection Ex as <-. cbn [fst snd]. split; [reflexivity|]. split; [intros; contradiction|]. intros _.
      exact (align_value_Q _ _ _ _ _ Eg Hp I F Ha).
Qed.
Theorem align_entries (p : pipeline Q) P M P' M' lead : align_on p <> ""%string -> lookup P (align_on p) = Ok lead -> increasingZ (index lead) -> after_1700 (index lead) -> fine P -> fine M ->
  align p (P, M) = Ok (P', M') -> Forall2 (aligned_entry p lead) P P' /\ Forall2 (aligned_entry p lead) M M'.
Proof.
  intros Hn Hl I F FP FM H. unfold align in H. destruct (String.eqb_spec (align_on p) ""); [contradiction|]. cbn [fst snd] in H. rewrite Hl in H. cbn [bind] in H.
  destruct (align_dict p (index lead) P) as [a|] eqn:Ea; [|discriminate]. cbn [bind] in H. destruct (align_dict p (index lead) M) as [b|] eqn:Eb; [|discriminate]. injection H as <- <-.
  split; now apply align_dict_entries.
Qed.

Lemma is_label_Q (x : ext Q) : is_label x = true <-> label x.
Proof.
  unfold is_label, label. rewrite !orb_true_iff. split.
  - intros [[H|H]|H]; destruct x as [q| | |]; try discriminate H; cbn in H; apply Qeq_bool_iff in H; exists q; (split; [reflexivity|]); auto.
  - intros (q & -> & H). cbn. rewrite !Qeq_bool_iff. destruct H as [H|[H|H]]; auto.
Qed.
Lemma labels_ok_Q (y : list (Z * ext Q)) : labels_ok y = true <-> forall t x, In (t, x) y -> x = NaN \/ label x.
Proof.
  unfold labels_ok, dropna_s. rewrite forallb_forall. split.
  - intros H t x Hin. destruct (is_nan x) eqn:E; [left; now destruct x|right]. apply is_label_Q. apply (H (t, x)). apply filter_In. split; [exact Hin|]. cbn. now rewrite E.
  - intros H [t x] Hin. apply filter_In in Hin. destruct Hin as (Hin & Hn). cbn [snd] in *. apply is_label_Q. destruct (H t x Hin) as [->|Hl]; [discriminate Hn|exact Hl].
Qed.
Theorem primary_rejects (p : pipeline Q) X y drop_na t x : In (t, x) y -> x <> NaN -> ~ label x ->
  create_dataset_primary p X y drop_na = Err AssertionError /\ create_dataset_metalabeling p X y = Err AssertionError.
Proof.
  intros Hin Hn Hl. assert (E : labels_ok y = false).
  { destruct (labels_ok y) eqn:E; [|reflexivity]. destruct (proj1 (labels_ok_Q y) E t x Hin); contradiction. }
  unfold create_dataset_primary, create_dataset_metalabeling. now rewrite E.
Qed.
Theorem primary_labels (p : pipeline Q) X y X' y' : create_dataset_primary p X y true = Ok (X', y') -> forall t x, In (t, x) y' -> In (t, x) y /\ label x.
Proof.
  unfold create_dataset_primary. intros H t x Hin. destruct (labels_ok y) eqn:El; [|discriminate]. cbn [negb raise_if bind] in H. destruct (features_of p X) as [fs|]; [|discriminate]. cbn [bind] in H.
  destruct (align_X_y_ok _ _ _ _ H) as (_ & _ & _ & _ & Hy). destruct (Hy t x Hin) as (Hi & Hf). split; [exact Hi|]. destruct (proj1 (labels_ok_Q y) El t x Hi) as [->|Hl]; [destruct Hf; discriminate|exact Hl].
Qed.
Theorem meta_labels (p : pipeline Q) X y P M X' y' : features_of p X = Ok (P, M) -> good_frames P -> good_frames M -> NoDup (map fst y) ->
  create_dataset_metalabeling p X y = Ok (X', y') ->
  exists Xp yp, create_dataset_primary p X y true = Ok (Xp, yp) /\
    forall t v, In (t, v) y' -> exists l q, In (t, Fin l) y /\ said predict (primary_model p) Xp t q /\
      (v = Fin 1%Q /\ (exists r, q = Fin r /\ (r == l)%Q) \/ v = Fin 0%Q /\ ~ (exists r, q = Fin r /\ (r == l)%Q)).
Proof.
  intros Hfs HP HM Hy H. destruct (dataset_meta_ok p X y P M X' y' Hfs HP HM Hy H) as (_ & _ & Ht & Xp & yp & Ep & _ & Hl). exists Xp, yp. split; [exact Ep|]. intros t v Hv.
  destruct (Hl t v Hv) as (l & q & Hin & Hs & Ev). assert (Hu : usable (map snd P) y t).
  { apply Ht. destruct (dataset_meta_ok p X y P M X' y' Hfs HP HM Hy H) as (Hi & _). rewrite Hi. apply in_map_iff. exists (t, v). now split. }
  destruct Hu as ((l0 & Hl0 & Hn) & _). assert (l0 = l) by (exact (NoDup_key_eq _ _ _ _ Hy Hl0 Hin)). subst l0.
  assert (El : labels_ok y = true) by (unfold create_dataset_primary in Ep; destruct (labels_ok y); [reflexivity|discriminate]).
  destruct (proj1 (labels_ok_Q y) El t l Hin) as [->|(b & -> & _)]; [contradiction|]. exists b, q. split; [exact Hin|]. split; [exact Hs|].
  destruct q as [a| | |]; cbn in Ev; try (right; split; [exact Ev|intros (r & E & _); discriminate]).
  destruct (Qeq_bool a b) eqn:Eq; [left|right]; (split; [exact Ev|]).
  - exists a. split; [reflexivity|now apply Qeq_bool_iff].
  - intros (r & [= <-] & E). apply Qeq_bool_iff in E. congruence.
Qed.

(** * The greatest probability *)
Lemma leb_ltb_Q (x y z : ext Q) : eleb x y = true -> eltb y z = true -> eltb x z = true.
Proof.
  unfold eleb. destruct x as [a| | |], y as [b| | |], z as [c| | |]; cbn; try easy. rewrite orb_true_iff, !negb_true_iff, Qeq_bool_iff.
  intros H1 H2. assert (Hx : forall u v, Qle_bool u v = false <-> (v < u)%Q).
  { intros u v. split; [intros E; apply Qnot_le_lt; intros L; apply Qle_bool_iff in L; congruence|intros L; destruct (Qle_bool u v) eqn:E; [apply Qle_bool_iff in E; lra|reflexivity]]. }
  rewrite Hx in *. destruct H1; lra.
Qed.
Lemma argmax_from_spec l : forall pre best v, first_greatest best v pre -> ~ In NaN (pre ++ l) ->
  exists x, first_greatest (argmax_from (length pre) best v l) x (pre ++ l) /\ fold_left py_max l v = x.
Proof.
  induction l as [|y l IH]; intros pre best v (Hb & Hg) Hn.
  - exists v. rewrite app_nil_r. split; [now split|reflexivity].
  - cbn [argmax_from fold_left]. unfold py_max at 2. assert (E : pre ++ y :: l = (pre ++ [y]) ++ l) by (now rewrite <- app_assoc). rewrite E in Hn |- *.
    assert (Hy : y <> NaN) by (intros ->; apply Hn; rewrite !in_app_iff; cbn; tauto).
    assert (Hv : v <> NaN) by (intros ->; apply Hn; rewrite !in_app_iff; left; left; exact (nth_error_In _ _ Hb)).
    assert (Hlen : length (pre ++ [y]) = S (length pre)) by (rewrite app_length; cbn; lia). assert (Hl : best < length pre) by (apply nth_error_Some; congruence).
    destruct (eltb v y) eqn:Ec; rewrite <- Hlen; apply IH; try exact Hn; split.
    + rewrite nth_error_app2, Nat.sub_diag by lia. reflexivity.
    + intros j z Hz. destruct (Nat.lt_ge_cases j (length pre)) as [Hj|Hj].
      * rewrite nth_error_app1 in Hz by exact Hj. destruct (Hg j z Hz) as (H1 & _). assert (Hzy : eltb z y = true) by (exact (leb_ltb_Q _ _ _ H1 Ec)). split; [now apply eltb_leb|intros; exact Hzy].
      * rewrite nth_error_app2 in Hz by exact Hj. destruct (j - length pre) as [|k] eqn:Ek; cbn in Hz; [injection Hz as <-|destruct k; discriminate]. split; [now apply eleb_Q_refl|lia].
    + rewrite nth_error_app1 by exact Hl. exact Hb.
    + intros j z Hz. destruct (Nat.lt_ge_cases j (length pre)) as [Hj|Hj].
      * rewrite nth_error_app1 in Hz by exact Hj. exact (Hg j z Hz).
      * rewrite nth_error_app2 in Hz by exact Hj. destruct (j - length pre) as [|k] eqn:Ek; cbn in Hz; [injection Hz as <-|destruct k; discriminate]. split; [now apply eltb_Q_total|lia].
Qed.
Theorem argmax_greatest (l : list (ext Q)) : l <> [] -> ~ In NaN l -> exists k, argmax l = Ok k /\ first_greatest k (row_max l) l.
Proof.
  destruct l as [|x l]; [easy|]. intros _ Hn. unfold argmax, row_max. destruct (argmax_from_spec l [x] 0 x) as (m & Hm & E).
  - split; [reflexivity|]. intros [|[|j]] y Hy; cbn in Hy; [injection Hy as <-|discriminate|discriminate]. split; [|lia]. apply eleb_Q_refl. intros ->. apply Hn. now left.
  - exact Hn.
  - eexists. split; [reflexivity|]. rewrite E. exact Hm.
Qed.
