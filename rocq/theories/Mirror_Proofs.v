(** CUSUM events of a series and of the mirrored series. *)
From Coq Require Import QArith Lqa.
From Verif Require Import PreludeFacts Series Cusum_Spec Cusum_Model Cusum_Proofs Mirror_Spec.
Local Open Scope nat_scope.

(** The accumulated rise and fall stay within the threshold. *)
Definition bounded (h : Q) (s : cstate Q) : Prop :=
  exists p n, pos s = Fin p /\ neg s = Fin n /\ (0 <= p <= h)%Q /\ (- h <= n <= 0)%Q.
Definition st_mirror (s s' : cstate Q) : Prop :=
  mirrored 0 (neg s) (pos s') /\ mirrored 0 (pos s) (neg s') /\ picked s' = picked s.

Ltac alt :=
  match goal with
  | |- context [@altb Q ?i ?a ?b] => let E := fresh "E" in destruct (@altb Q i a b) eqn:E; [apply altb_Q_true in E|apply altb_Q_false in E]
  end.

Lemma step_mirror h s s' t d d' : (0 <= h)%Q -> bounded h s -> st_mirror s s' -> mirrored 0 d d' ->
  bounded h (cusum_step h s t d) /\ st_mirror (cusum_step h s t d) (cusum_step h s' t d').
Proof.
  intros Hh (p & n & Ep & En & Hp & Hn) (M1 & M2 & Mk) Hd. rewrite Ep in M2. rewrite En in M1.
  destruct (pos s') as [p'| | |] eqn:Ep'; try easy. destruct (neg s') as [n'| | |] eqn:En'; try easy. cbn [mirrored] in M1, M2.
  unfold cusum_step. rewrite Ep, En, Ep', En'. unfold py_max, py_min.
  destruct d as [d| | |], d' as [d'| | |]; cbn [mirrored] in Hd; try easy; cbn [eadd eltb eopp].
  all: cbn [aadd aopp Arith_Q a0] in *; unfold bounded, st_mirror; repeat (alt; cbn [eltb pos neg picked aopp Arith_Q] in *; try (exfalso; lra)).
  all: (split; [eexists; eexists; split; [reflexivity|split; [reflexivity|split; lra]]|split; [cbn; lra|split; [cbn; lra|now rewrite ?Mk]]]).
Qed.

Definition row_mirror (r r' : Z * ext Q) : Prop := fst r' = fst r /\ mirrored 0 (snd r) (snd r').
Lemma loc_mirror s s' t : Forall2 row_mirror s s' -> match loc s t, loc s' t with Ok x, Ok x' => mirrored 0 x x' | Err e, Err e' => e' = e | _, _ => False end.
Proof.
  intros H. assert (F : Forall2 row_mirror (filter (fun r => Z.eqb (fst r) t) s) (filter (fun r => Z.eqb (fst r) t) s')).
  { induction H as [|r r' s s' (E & Hr) _ IH]; [constructor|]. cbn [filter]. rewrite E. destruct (Z.eqb (fst r) t); [constructor; [now split|exact IH]|exact IH]. }
  unfold loc. inversion F as [|r r' l l' (E & Hr) Hl]; [reflexivity|]. inversion Hl; [exact Hr|reflexivity].
Qed.
Lemma loop_mirror h d d' ts : (0 <= h)%Q -> Forall2 row_mirror d d' -> forall s s', bounded h s -> st_mirror s s' ->
  match foldM (fun st t => do v <- loc d t ;; Ok (cusum_step h st t v)) s ts, foldM (fun st t => do v <- loc d' t ;; Ok (cusum_step h st t v)) s' ts with
  | Ok a, Ok a' => st_mirror a a' | Err e, Err e' => e' = e | _, _ => False end.
Proof.
  intros Hh Hd. induction ts as [|t ts IH]; intros s s' Hb Hs; [exact Hs|]. cbn [foldM]. pose proof (loc_mirror d d' t Hd) as Hl.
  destruct (loc d t) as [v|], (loc d' t) as [v'|]; cbn [bind]; try easy. destruct (step_mirror h s s' t v v' Hh Hb Hs Hl). now apply IH.
Qed.

Lemma esub_mirror b x y x' y' : mirrored b x x' -> mirrored b y y' -> mirrored 0 (esub x y) (esub x' y').
Proof.
  destruct x as [x| | |], x' as [x'| | |]; cbn [mirrored]; try easy; destruct y as [y| | |], y' as [y'| | |]; cbn [mirrored]; try easy; intros H1 H2.
  cbn. rewrite H1, H2. ring.
Qed.
Lemma diff_mirror b l l' : Forall2 (mirrored b) l l' -> Forall2 (mirrored 0) (diff l) (diff l').
Proof.
  intros H. unfold diff, shift1.
  assert (G : forall l l' p p', Forall2 (mirrored b) l l' -> mirrored b p p' -> Forall2 (mirrored 0) (zipw esub l (firstn (length l) (p :: l))) (zipw esub l' (firstn (length l') (p' :: l')))).
  { clear. intros l l' p p' H. revert p p'. induction H as [|x x' l l' Hx Hl IH]; intros p p' Hp; [constructor|]. cbn [length firstn]. unfold zipw. cbn [combine map fst snd].
    constructor; [now apply esub_mirror with (b := b)|]. now apply IH. }
  now apply G.
Qed.

Theorem cusum_mirror b h X X' : (0 <= h)%Q -> Forall2 (fun r r' => fst r' = fst r /\ mirrored b (snd r) (snd r')) X X' ->
  cusum_transform h X' = cusum_transform h X.
Proof.
  intros Hh H. unfold cusum_transform, cusum_loop.
  assert (Et : map fst X' = map fst X) by (induction H as [|r r' X X' (E & _) _ IH]; [reflexivity|cbn; now rewrite E, IH]).
  assert (Hv : Forall2 (mirrored b) (map snd X) (map snd X')) by (clear Et; induction H as [|r r' X X' (_ & E) _ IH]; cbn; constructor; auto).
  rewrite Et. apply diff_mirror in Hv.
  assert (Hd : Forall2 row_mirror (combine (map fst X) (diff (map snd X))) (combine (map fst X) (diff (map snd X')))).
  { revert Hv. generalize (map fst X), (diff (map snd X)), (diff (map snd X')). clear. intros ts l l' Hv. revert ts. induction Hv as [|x x' l l' Hx _ IH]; intros [|t ts]; cbn; constructor; auto. now split. }
  assert (L := loop_mirror h _ _ (tl (map fst X)) Hh Hd {| pos := Fin a0; neg := Fin a0; picked := [] |} {| pos := Fin a0; neg := Fin a0; picked := [] |}).
  cbv zeta. destruct (foldM (fun st t => do v <- loc (combine (map fst X) (diff (map snd X))) t ;; _) _ _) as [a|e],
    (foldM (fun st t => do v <- loc (combine (map fst X) (diff (map snd X'))) t ;; _) _ _) as [a'|e']; cbn [bind].
  all: assert (L' : ltac:(match type of L with _ -> _ -> ?P => exact P end)) by (apply L; [exists 0%Q, 0%Q; cbn; repeat split; lra|repeat split; cbn; lra]); cbn in L'; try easy.
  - destruct L' as (_ & _ & E). now rewrite E.
  - now rewrite L'.
Qed.
