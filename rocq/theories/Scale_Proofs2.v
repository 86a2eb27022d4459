(** CUSUM events do not depend on the unit or the origin of the series. *)
From Coq Require Import QArith Lqa.
From Verif Require Import PreludeFacts Series Cusum_Model Scale_Spec.
Local Open Scope nat_scope.

Section Rescaling.
  Variables (c : Q) (Hc : (0 < c)%Q).
  Notation rel := (rescaled c 0).

  Lemma Qle_bool_eq (a b a' b' : Q) : ((a <= b)%Q <-> (a' <= b')%Q) -> Qle_bool a b = Qle_bool a' b'.
  Proof. intros H. apply Bool.eq_iff_eq_true. now rewrite !Qle_bool_iff. Qed.

  Lemma altb_rel (a b a' b' : Q) : (a' == c * a)%Q -> (b' == c * b)%Q -> altb a' b' = altb a b.
  Proof.
    intros Ha Hb. unfold altb. cbn. f_equal. apply Qle_bool_eq. rewrite Ha, Hb. split; intros H; nra.
  Qed.
  Lemma rel_Fin a a' : rel (Fin a) (Fin a') <-> (a' == c * a)%Q.
  Proof. cbn. split; intros H; rewrite H; ring. Qed.
  Lemma eltb_rel x y x' y' : rel x x' -> rel y y' -> eltb x' y' = eltb x y.
  Proof.
    destruct x as [x| | |], x' as [x'| | |]; cbn [rescaled]; try easy; destruct y as [y| | |], y' as [y'| | |]; cbn [rescaled]; try easy; intros H1 H2.
    cbn [eltb]. apply altb_rel; [rewrite H1|rewrite H2]; ring.
  Qed.
  Lemma eadd_rel x y x' y' : rel x x' -> rel y y' -> rel (eadd x y) (eadd x' y').
  Proof.
    destruct x as [x| | |], x' as [x'| | |]; cbn [rescaled]; try easy; destruct y as [y| | |], y' as [y'| | |]; cbn [rescaled]; try easy; intros H1 H2.
    cbn. rewrite H1, H2. ring.
  Qed.
  Lemma eopp_rel x x' : rel x x' -> rel (eopp x) (eopp x').
  Proof. destruct x as [x| | |], x' as [x'| | |]; cbn; try easy. intros ->. ring. Qed.
  Lemma py_max_rel x y x' y' : rel x x' -> rel y y' -> rel (py_max x y) (py_max x' y').
  Proof. intros H1 H2. unfold py_max. rewrite (eltb_rel _ _ _ _ H1 H2). now destruct (eltb x y). Qed.
  Lemma py_min_rel x y x' y' : rel x x' -> rel y y' -> rel (py_min x y) (py_min x' y').
  Proof. intros H1 H2. unfold py_min. rewrite (eltb_rel _ _ _ _ H2 H1). now destruct (eltb y x). Qed.
  Lemma zero_rel : rel (Fin 0%Q) (Fin 0%Q).
  Proof. cbn. ring. Qed.

  Definition st_rel (s s' : cstate Q) : Prop := rel (pos s) (pos s') /\ rel (neg s) (neg s') /\ picked s' = picked s.
  Lemma step_rel h h' s s' t d d' : (h' == c * h)%Q -> st_rel s s' -> rel d d' -> st_rel (cusum_step h s t d) (cusum_step h' s' t d').
  Proof.
    intros Hh (Hp & Hn & Hk) Hd. unfold cusum_step. cbv zeta.
    assert (Hp' := py_max_rel _ _ _ _ zero_rel (eadd_rel _ _ _ _ Hp Hd)). assert (Hn' := py_min_rel _ _ _ _ zero_rel (eadd_rel _ _ _ _ Hn Hd)).
    assert (Hhr : rel (Fin h) (Fin h')) by (now apply rel_Fin).
    change (Fin a0) with (@Fin Q 0%Q). rewrite (eltb_rel _ _ _ _ Hn' (eopp_rel _ _ Hhr)). destruct (eltb _ _); [split; [exact Hp'|split; [exact zero_rel|cbn; now rewrite Hk]]|].
    rewrite (eltb_rel _ _ _ _ Hhr Hp'). destruct (eltb _ _); [split; [exact zero_rel|split; [exact Hn'|cbn; now rewrite Hk]]|]. split; [exact Hp'|split; [exact Hn'|exact Hk]].
  Qed.

  Definition row_rel (r r' : Z * ext Q) : Prop := fst r' = fst r /\ rel (snd r) (snd r').
  Lemma loc_rel s s' t : Forall2 row_rel s s' -> match loc s t, loc s' t with Ok x, Ok x' => rel x x' | Err e, Err e' => e' = e | _, _ => False end.
  Proof.
    intros H. assert (F : Forall2 row_rel (filter (fun r => Z.eqb (fst r) t) s) (filter (fun r => Z.eqb (fst r) t) s')).
    { induction H as [|r r' s s' (E & Hr) _ IH]; [constructor|]. cbn [filter]. rewrite E. destruct (Z.eqb (fst r) t); [constructor; [now split|exact IH]|exact IH]. }
    unfold loc. inversion F as [|r r' l l' (E & Hr) Hl]; [reflexivity|]. inversion Hl; [exact Hr|reflexivity].
  Qed.
  Lemma loop_rel h h' d d' ts : (h' == c * h)%Q -> Forall2 row_rel d d' -> forall s s', st_rel s s' ->
    match foldM (fun st t => do v <- loc d t ;; Ok (cusum_step h st t v)) s ts, foldM (fun st t => do v <- loc d' t ;; Ok (cusum_step h' st t v)) s' ts with
    | Ok a, Ok a' => st_rel a a' | Err e, Err e' => e' = e | _, _ => False end.
  Proof.
    intros Hh Hd. induction ts as [|t ts IH]; intros s s' Hs; [exact Hs|]. cbn [foldM]. pose proof (loc_rel d d' t Hd) as Hl.
    destruct (loc d t) as [v|], (loc d' t) as [v'|]; cbn [bind]; try easy. apply IH. now apply step_rel.
  Qed.
End Rescaling.

(** The differences of a rescaled series. *)
Lemma esub_rescaled c b x y x' y' : rescaled c b x x' -> rescaled c b y y' -> rescaled c 0 (esub x y) (esub x' y').
Proof.
  destruct x as [x| | |], x' as [x'| | |]; cbn [rescaled]; try easy; destruct y as [y| | |], y' as [y'| | |]; cbn [rescaled]; try easy; intros H1 H2.
  cbn. rewrite H1, H2. ring.
Qed.
Lemma diff_rescaled c b l l' : Forall2 (rescaled c b) l l' -> Forall2 (rescaled c 0) (diff l) (diff l').
Proof.
  intros H. unfold diff, shift1.
  assert (G : forall l l' p p', Forall2 (rescaled c b) l l' -> rescaled c b p p' -> Forall2 (rescaled c 0) (zipw esub l (firstn (length l) (p :: l))) (zipw esub l' (firstn (length l') (p' :: l')))).
  { clear. intros l l' p p' H. revert p p'. induction H as [|x x' l l' Hx Hl IH]; intros p p' Hp; [constructor|]. cbn [length firstn]. unfold zipw. cbn [combine map fst snd].
    constructor; [now apply esub_rescaled with (b := b)|]. now apply IH. }
  now apply G.
Qed.

Theorem cusum_rescaled c b h h' X X' : (0 < c)%Q -> (h' == c * h)%Q -> Forall2 (fun r r' => fst r' = fst r /\ rescaled c b (snd r) (snd r')) X X' ->
  cusum_transform h' X' = cusum_transform h X.
Proof.
  intros Hc Hh H. unfold cusum_transform, cusum_loop.
  assert (Et : map fst X' = map fst X) by (induction H as [|r r' X X' (E & _) _ IH]; [reflexivity|cbn; now rewrite E, IH]).
  assert (Hv : Forall2 (rescaled c b) (map snd X) (map snd X')) by (clear Et; induction H as [|r r' X X' (_ & E) _ IH]; cbn; constructor; auto).
  rewrite Et. apply diff_rescaled in Hv.
  assert (Hd : Forall2 (row_rel c) (combine (map fst X) (diff (map snd X))) (combine (map fst X) (diff (map snd X')))).
  { revert Hv. generalize (map fst X), (diff (map snd X)), (diff (map snd X')). clear. intros ts l l' Hv. revert ts. induction Hv as [|x x' l l' Hx _ IH]; intros [|t ts]; cbn; constructor; auto. now split. }
  assert (L := loop_rel c Hc h h' _ _ (tl (map fst X)) Hh Hd {| pos := Fin a0; neg := Fin a0; picked := [] |} {| pos := Fin a0; neg := Fin a0; picked := [] |}
    (conj (zero_rel c) (conj (zero_rel c) eq_refl))).
  cbv zeta. destruct (foldM (fun st t => do v <- loc (combine (map fst X) (diff (map snd X))) t ;; _) _ _) as [a|e],
    (foldM (fun st t => do v <- loc (combine (map fst X) (diff (map snd X'))) t ;; _) _ _) as [a'|e']; try easy; cbn [bind].
  - destruct L as (_ & _ & E). now rewrite E.
  - now rewrite L.
Qed.
