(** Proofs for the CUSUM filter. *)
From Coq Require Import QArith Lqa.
From Verif Require Import Series Cusum_Spec Cusum_Model.
Local Open Scope nat_scope.

Lemma altb_Q_true a b : altb (A:=Q) a b = true <-> (a < b)%Q.
Proof.
  cbn. rewrite negb_true_iff. split; intros H.
  - apply Qnot_le_lt. intros H1. apply Qle_bool_iff in H1. congruence.
  - destruct (Qle_bool b a) eqn:E; auto. apply Qle_bool_iff in E. exfalso. lra.
Qed.
Lemma altb_Q_false a b : altb (A:=Q) a b = false <-> (b <= a)%Q.
Proof.
  split; intros H.
  - apply Qnot_lt_le. intros H1. apply altb_Q_true in H1. congruence.
  - destruct (altb a b) eqn:E; auto. apply altb_Q_true in E. exfalso. lra.
Qed.

(** ** Differences *)

Fixpoint diff_from {A} `{Arith A} (prev : ext A) (l : list (ext A)) : list (ext A) :=
  match l with [] => [] | x :: r => esub x prev :: diff_from x r end.

Lemma zipw_diff_from {A} `{Arith A} (l : list (ext A)) : forall x,
  zipw esub l (firstn (length l) (x :: l)) = diff_from x l.
Proof.
  induction l as [|y l IH]; intros x; auto. cbn [length firstn]. unfold zipw. cbn. f_equal. apply IH.
Qed.

Lemma diff_cons {A} `{Arith A} (x : ext A) l : exists v, diff (x :: l) = v :: diff_from x l.
Proof.
  exists (esub x NaN). unfold diff, shift1, zipw. cbn [length firstn combine map fst snd]. f_equal.
  apply zipw_diff_from.
Qed.

Lemma diff_from_length {A} `{Arith A} (l : list (ext A)) : forall x, length (diff_from x l) = length l.
Proof. induction l; intros; cbn; auto. Qed.
Lemma diff_length {A} `{Arith A} (l : list (ext A)) : length (diff l) = length l.
Proof. destruct l as [|x l]; auto. destruct (diff_cons x l) as [v ->]. cbn. now rewrite diff_from_length. Qed.
Lemma diff_from_app {A} `{Arith A} (l m : list (ext A)) : forall x,
  diff_from x (l ++ m) = diff_from x l ++ diff_from (last l x) m.
Proof.
  induction l as [|y l IH]; intros x; auto. cbn [diff_from app]. rewrite IH. f_equal. f_equal. f_equal.
  destruct l; auto. cbn. clear. revert x y e. induction l; intros; auto. cbn in *. destruct l; auto.
Qed.

(** ** Label lookup *)

Section AnyNumbers.
Context {T : Type} `{HA : Arith T}.

Lemma loc_nodup (s : series T) t v : NoDup (map fst s) -> In (t, v) s -> loc s t = Ok v.
Proof.
  intros HN Hin. unfold loc.
  assert (filter (fun r => Z.eqb (fst r) t) s = [(t, v)]) as ->; [|reflexivity].
  induction s as [|[t' v'] s IH]; [easy|]. cbn in HN. inversion HN as [|? ? Hn HN']. subst.
  destruct Hin as [[= -> ->]|Hin].
  - cbn. rewrite Z.eqb_refl. f_equal.
    clear - Hn. induction s as [|[t' v'] s IH]; auto. cbn in *.
    destruct (Z.eqb_spec t' t); [exfalso; auto|]. apply IH. tauto.
  - cbn. destruct (Z.eqb_spec t' t) as [->|_]; [|auto].
    exfalso. apply Hn. now apply (in_map fst) in Hin.
Qed.

Lemma loc_ok_count (s : series T) t v : loc s t = Ok v -> length (filter (Z.eqb t) (map fst s)) = 1.
Proof.
  unfold loc. destruct (filter _ s) as [|r [|]] eqn:E; try discriminate. intros _.
  assert (filter (Z.eqb t) (map fst s) = map fst (filter (fun r => Z.eqb (fst r) t) s)) as ->.
  { clear E. induction s as [|a s IH]; auto. cbn. rewrite Z.eqb_sym. destruct (Z.eqb (fst a) t); cbn; now rewrite IH. }
  now rewrite E.
Qed.

Lemma count1_nodup (l : list Z) : (forall t, In t (tl l) -> length (filter (Z.eqb t) l) = 1) -> NoDup l.
Proof.
  destruct l as [|x l]; [constructor|]. cbn [tl]. intros H.
  assert (~ In x l) as Hx.
  { intros Hin. pose proof (H x Hin) as H1. cbn in H1. rewrite Z.eqb_refl in H1. cbn in H1.
    assert (In x (filter (Z.eqb x) l)) as H2 by (apply filter_In; split; auto; apply Z.eqb_refl).
    destruct (filter (Z.eqb x) l); [easy|cbn in H1; lia]. }
  constructor; auto.
  assert (forall t, In t l -> length (filter (Z.eqb t) l) = 1) as H'.
  { intros t Ht. specialize (H t Ht). cbn in H. destruct (Z.eqb_spec t x); [subst; tauto|auto]. }
  clear H Hx x. induction l as [|x l IH]; [constructor|].
  assert (~ In x l) as Hx.
  { intros Hin. pose proof (H' x (or_introl eq_refl)) as H1. cbn in H1. rewrite Z.eqb_refl in H1. cbn in H1.
    assert (In x (filter (Z.eqb x) l)) as H2 by (apply filter_In; split; auto; apply Z.eqb_refl).
    destruct (filter (Z.eqb x) l); [easy|cbn in H1; lia]. }
  constructor; auto. apply IH. intros t Ht. specialize (H' t (or_intror Ht)). cbn in H'.
  destruct (Z.eqb_spec t x); [subst; tauto|auto].
Qed.

Lemma foldM_in {A B} (f : A -> B -> result A) l : forall a r, foldM f a l = Ok r ->
  forall x, In x l -> exists b c, f b x = Ok c.
Proof.
  induction l as [|y l IH]; intros a r H x Hx; [easy|]. cbn in H. destruct (f a y) as [c|] eqn:E; [|discriminate].
  destruct Hx as [->|Hx]; eauto.
Qed.


Definition init : cstate T := {| pos := Fin a0; neg := Fin a0; picked := [] |}.

(** The loop on the sequence of (label, difference) pairs, without lookups. *)
Definition run (h : T) (l : list (Z * ext T)) (st : cstate T) : cstate T :=
  fold_left (fun st tv => cusum_step h st (fst tv) (snd tv)) l st.

Definition steps (X : series T) : list (Z * ext T) :=
  match X with [] => [] | (t, v) :: r => combine (map fst r) (diff_from v (map snd r)) end.

Lemma loop_ok_nodup (h : T) X st : cusum_loop h X = Ok st -> NoDup (map fst X).
Proof.
  unfold cusum_loop. intros H. apply count1_nodup. intros t Ht.
  destruct (foldM_in _ _ _ _ H t Ht) as (b & c & Hc).
  destruct (loc _ t) as [v|] eqn:E; [|discriminate]. apply loc_ok_count in E.
  assert (map fst (combine (map fst X) (diff (map snd X))) = map fst X) as HH.
  { assert (length (map fst X) = length (diff (map snd X))) as HL by (rewrite diff_length, !map_length; auto).
    revert HL. generalize (map fst X) (diff (map snd X)). clear. induction l; intros [|]; cbn; intros; try lia; auto.
    f_equal. apply IHl. lia. }
  now rewrite HH in E.
Qed.

Lemma map_fst_combine {A B} (l : list A) : forall (m : list B), length l = length m -> map fst (combine l m) = l.
Proof. induction l; intros [|]; cbn; intros; try lia; auto. f_equal. apply IHl. lia. Qed.
Lemma map_snd_combine {A B} (l : list A) : forall (m : list B), length l = length m -> map snd (combine l m) = m.
Proof. induction l; intros [|]; cbn; intros; try lia; auto. f_equal. apply IHl. lia. Qed.

Lemma loop_nodup (h : T) X : NoDup (map fst X) -> cusum_loop h X = Ok (run h (steps X) init).
Proof.
  intros HN. unfold cusum_loop. destruct X as [|[t0 v0] X]; [reflexivity|].
  cbn [map fst snd tl]. destruct (diff_cons v0 (map snd X)) as [v ->]. cbn [combine steps].
  set (d := combine (map fst X) (diff_from v0 (map snd X))).
  assert (HL : length (map fst X) = length (diff_from v0 (map snd X))) by (rewrite diff_from_length, !map_length; auto).
  assert (Hd : map fst d = map fst X) by (apply map_fst_combine; auto).
  assert (HN2 : NoDup (map fst ((t0, v) :: d))) by (cbn; rewrite Hd; exact HN).
  rewrite <- Hd. unfold run. fold init.
  assert (forall l st, (forall r, In r l -> In r d) ->
    foldM (fun st t => do x <- loc ((t0, v) :: d) t ;; Ok (cusum_step h st t x)) st (map fst l) =
    Ok (fold_left (fun st tv => cusum_step h st (fst tv) (snd tv)) l st)) as HH.
  { induction l as [|[t x] l IH]; intros st Hl; auto. cbn [map foldM fst snd fold_left].
    rewrite (loc_nodup _ t x HN2) by (right; apply Hl; now left). cbn. apply IH. intros; apply Hl. now right. }
  now apply HH.
Qed.

Lemma transform_ok (h : T) X out : cusum_transform h X = Ok out <->
  NoDup (map fst X) /\ out = picked (run h (steps X) init).
Proof.
  unfold cusum_transform. split.
  - destruct (cusum_loop h X) as [st|] eqn:E; [|discriminate]. cbn. intros [= <-].
    pose proof (loop_ok_nodup _ _ _ E) as HN. split; auto. rewrite loop_nodup in E by auto. now injection E as <-.
  - intros [HN ->]. now rewrite loop_nodup.
Qed.

Lemma transform_err (h : T) X : ~ NoDup (map fst X) -> cusum_transform h X = Err ValueError.
Proof.
  intros HN. unfold cusum_transform. destruct (cusum_loop h X) as [st|e] eqn:E.
  - exfalso. eauto using loop_ok_nodup.
  - cbn. f_equal. unfold cusum_loop in E.
    set (d := combine (map fst X) (diff (map snd X))) in *.
    assert (Hin : forall t, In t (tl (map fst X)) -> In t (map fst d)).
    { intros t Ht. unfold d. rewrite map_fst_combine by (rewrite diff_length, !map_length; auto).
      destruct (map fst X); cbn in *; auto. }
    revert E Hin. generalize (tl (map fst X)). fold init. generalize init.
    intros st l. revert st. induction l as [|t l IH]; cbn; intros st E Hin; [discriminate|].
    destruct (loc d t) as [v|e'] eqn:E1; cbn in E.
    + eapply IH; eauto.
    + injection E as <-. unfold loc in E1. destruct (filter _ d) as [|r [|]] eqn:E2; try congruence.
      exfalso. specialize (Hin t (or_introl eq_refl)). apply in_map_iff in Hin as (r & Hr & Hin).
      assert (In r []) as HH; [|easy]. rewrite <- E2. apply filter_In. split; auto. subst. apply Z.eqb_refl.
Qed.

End AnyNumbers.

(** ** C23 *)

Definition within (h : Q) (st : cstate Q) : Prop :=
  exists p n, pos st = Fin p /\ neg st = Fin n /\ (0 <= p <= h)%Q /\ (- h <= n <= 0)%Q.

Lemma py_max_fin0 (x : ext Q) : x <> PInf -> exists p, py_max (Fin a0) x = Fin p /\ (0 <= p)%Q /\
   (x = Fin p \/ p = 0%Q).
Proof.
  intros Hx. unfold py_max. destruct x as [a| | |]; [|congruence| |]; cbn [eltb].
  - destruct (altb a0 a) eqn:E; [exists a|exists 0%Q]; repeat split; auto; try lra.
    apply altb_Q_true in E. cbn in E. lra.
  - exists 0%Q. repeat split; auto; lra.
  - exists 0%Q. repeat split; auto; lra.
Qed.
Lemma py_min_fin0 (x : ext Q) : x <> NInf -> exists n, py_min (Fin a0) x = Fin n /\ (n <= 0)%Q /\
   (x = Fin n \/ n = 0%Q).
Proof.
  intros Hx. unfold py_min. destruct x as [a| | |]; [| |congruence|]; cbn [eltb].
  - destruct (altb a a0) eqn:E; [exists a|exists 0%Q]; repeat split; auto; try lra.
    apply altb_Q_true in E. cbn in E. lra.
  - exists 0%Q. repeat split; auto; lra.
  - exists 0%Q. repeat split; auto; lra.
Qed.

(** What one step does: exactly one of three outcomes. *)
Lemma step_cases h st t d : (0 <= h)%Q -> within h st ->
  within h (cusum_step h st t d) /\
  let p := py_max (Fin a0) (eadd (pos st) d) in
  let n := py_min (Fin a0) (eadd (neg st) d) in
  (eltb n (eopp (Fin h)) && eltb (Fin h) p = false) /\
  picked (cusum_step h st t d) = picked st ++ (if eltb n (eopp (Fin h)) || eltb (Fin h) p then [t] else []).
Proof.
  intros Hh (p & n & Hp & Hn & Bp & Bn).
  unfold cusum_step. rewrite Hp, Hn. cbv zeta.
  destruct d as [d| | |].
  - (* finite *)
    destruct (py_max_fin0 (eadd (Fin p) (Fin d))) as (p' & Ep & Lp & Cp); [discriminate|].
    destruct (py_min_fin0 (eadd (Fin n) (Fin d))) as (n' & En & Ln & Cn); [discriminate|].
    rewrite Ep, En. cbn [eltb eopp].
    destruct (altb n' (aopp h)) eqn:E1; destruct (altb h p') eqn:E2;
      try apply altb_Q_true in E1; try apply altb_Q_true in E2; try apply altb_Q_false in E1; try apply altb_Q_false in E2.
    + exfalso. cbn in E1, E2, Cp, Cn. destruct Cp as [[= <-]| ->]; [|lra]. destruct Cn as [[= <-]| ->]; [|lra]. lra.
    + cbn in E1. split; [|split; [reflexivity|reflexivity]]. exists p', 0%Q. cbn. repeat split; lra.
    + cbn in E1. split; [|split; [reflexivity|reflexivity]]. exists 0%Q, n'. cbn. repeat split; lra.
    + cbn in E1. split; [|split; [reflexivity|cbn; now rewrite app_nil_r]]. exists p', n'. cbn. repeat split; lra.
  - (* +inf *)
    unfold eltb, py_min, py_max, eopp, eadd, eltb. cbn [pos neg picked].
    destruct (altb a0 (aopp h)) eqn:E1; [apply altb_Q_true in E1; cbn in E1; lra|].
    split; [|split; [reflexivity|reflexivity]]. exists 0%Q, 0%Q. cbn. repeat split; lra.
  - unfold eltb, py_min, py_max, eopp, eadd, eltb. cbn [pos neg picked].
    destruct (altb h a0) eqn:E1; [apply altb_Q_true in E1; cbn in E1; lra|].
    split; [|split; [reflexivity|reflexivity]]. exists 0%Q, 0%Q. cbn. repeat split; lra.
  - unfold eltb, py_min, py_max, eopp, eadd, eltb. cbn [pos neg picked].
    destruct (altb h a0) eqn:E1; [apply altb_Q_true in E1; cbn in E1; lra|].
    destruct (altb a0 (aopp h)) eqn:E2; [apply altb_Q_true in E2; cbn in E2; lra|].
    split; [|split; [reflexivity|cbn; now rewrite app_nil_r]]. exists 0%Q, 0%Q. cbn. repeat split; lra.
Qed.

Lemma run_within h l : (0 <= h)%Q -> forall st, within h st -> within h (run h l st).
Proof.
  intros Hh. induction l as [|[t d] l IH]; intros st Hst; auto. cbn. apply IH. now apply step_cases.
Qed.
Lemma init_within h : (0 <= h)%Q -> within h init.
Proof. intros. exists 0%Q, 0%Q. cbn. repeat split; lra. Qed.

Lemma c23 h X st : (0 <= h)%Q -> cusum_loop h X = Ok st -> within h st.
Proof.
  intros Hh H. pose proof (loop_ok_nodup _ _ _ H) as HN. rewrite loop_nodup in H by auto. injection H as <-.
  apply run_within; auto. now apply init_within.
Qed.

(** ** C24 *)

Lemma run_app {A} `{HA : Arith A} (h : A) l m st : run h (l ++ m) st = run h m (run h l st).
Proof. unfold run. apply fold_left_app. Qed.


Lemma run_picked {A} `{HA : Arith A} (h : A) l : forall st, exists s, subseq s (map fst l) /\ picked (run h l st) = picked st ++ s.
Proof.
  induction l as [|[t d] l IH]; intros st.
  - exists []. split; [constructor|]. cbn. now rewrite app_nil_r.
  - destruct (IH (cusum_step h st t d)) as (s & Hs & E). change (run h ((t, d) :: l) st) with (run h l (cusum_step h st t d)).
    rewrite E. unfold cusum_step. cbv zeta.
    destruct (eltb _ _); [|destruct (eltb _ _)]; cbn [picked].
    + exists (t :: s). rewrite <- app_assoc. split; [now apply sub_take|reflexivity].
    + exists (t :: s). rewrite <- app_assoc. split; [now apply sub_take|reflexivity].
    + exists s. split; [now apply sub_skip|reflexivity].
Qed.

Lemma combine_app {A B} (a1 : list A) : forall a2 (b1 b2 : list B), length a1 = length b1 ->
  combine (a1 ++ a2) (b1 ++ b2) = combine a1 b1 ++ combine a2 b2.
Proof. induction a1; intros a2 [|b b1] b2 H; cbn in *; try lia; auto. f_equal. apply IHa1. lia. Qed.

Lemma steps_fst {A} `{HA : Arith A} (X : series A) : map fst (steps X) = tl (map fst X).
Proof.
  destruct X as [|[t v] X]; auto. cbn. apply map_fst_combine. now rewrite diff_from_length, !map_length.
Qed.

Lemma subseq_refl {A} (l : list A) : subseq l l.
Proof. induction l; [apply sub_nil|now apply sub_take]. Qed.

Lemma steps_app {A} `{HA : Arith A} (X Y : series A) : exists l, steps (X ++ Y) = steps X ++ l /\ subseq (map fst l) (map fst Y).
Proof.
  destruct X as [|[t v] X].
  - exists (steps Y). split; auto. rewrite steps_fst. destruct (map fst Y); cbn; [constructor|].
    apply sub_skip. apply subseq_refl.
  - cbn. rewrite !map_app, diff_from_app, combine_app by now rewrite diff_from_length, !map_length.
    eexists. split; [reflexivity|]. rewrite map_fst_combine by now rewrite diff_from_length, !map_length.
    apply subseq_refl.
Qed.

Lemma subseq_in {A} (s l : list A) x : subseq s l -> In x s -> In x l.
Proof. induction 1; cbn; intros; tauto. Qed.
Lemma subseq_trans {A} (a b c : list A) : subseq a b -> subseq b c -> subseq a c.
Proof.
  intros H1 H2. revert a H1. induction H2; intros a H1.
  - inversion H1; subst. constructor.
  - constructor. auto.
  - inversion H1; subst; [constructor|apply sub_skip; auto|apply sub_take; auto].
Qed.
Lemma NoDup_app_l {A} (l m : list A) : NoDup (l ++ m) -> NoDup l.
Proof.
  induction l; cbn; intros H; [constructor|]. inversion H; subst. constructor; auto.
  intros Hin. apply H2. apply in_or_app. auto.
Qed.

Lemma c24 {A} `{HA : Arith A} (h : A) X Y out : cusum_transform h (X ++ Y) = Ok out ->
  exists a b, cusum_transform h X = Ok a /\ out = a ++ b /\ subseq a (tl (map fst X)) /\ subseq b (map fst Y).
Proof.
  intros H. apply transform_ok in H as [HN ->]. rewrite map_app in HN. apply NoDup_app_l in HN.
  destruct (steps_app X Y) as (l & E & Hl). rewrite E, run_app.
  destruct (run_picked h l (run h (steps X) init)) as (s & Hs & Es).
  exists (picked (run h (steps X) init)), s. repeat split.
  - apply transform_ok. auto.
  - exact Es.
  - destruct (run_picked h (steps X) init) as (s' & Hs' & Es'). rewrite Es'. cbn. now rewrite <- steps_fst.
  - eapply subseq_trans; eauto.
Qed.

(** ** C22 *)

Section Crossings.
  Variables (h : Q) (p : nat -> Q).
  Hypothesis Hh : (0 <= h)%Q.

  (** Positive and negative accumulators and what fired at step k. *)
  Fixpoint acc (k : nat) : Q * Q * (bool * bool) :=
    match k with
    | O => (0, 0, (false, false))%Q
    | S j =>
      let '(P, N, _) := acc j in
      let d := (p (S j) + - p j)%Q in
      let P' := if altb 0%Q (P + d)%Q then (P + d)%Q else 0%Q in
      let N' := if altb (N + d)%Q 0%Q then (N + d)%Q else 0%Q in
      if altb N' (- h)%Q then (P', 0%Q, (false, true))
      else if altb h P' then (0%Q, N', (true, false))
      else (P', N', (false, false))
    end.
  Definition upb k := fst (snd (acc k)).
  Definition downb k := snd (snd (acc k)).
  Definition accP k := fst (fst (acc k)).
  Definition accN k := snd (fst (acc k)).

  Definition since (U : nat -> bool) (k i : nat) : Prop := forall u, U u = true -> u <= k -> u <= i.

  Lemma acc_bounds k : (0 <= accP k <= h /\ - h <= accN k <= 0)%Q.
  Proof.
    unfold accP, accN. induction k as [|k IH]; [cbn; lra|]. cbn [acc]. destruct (acc k) as [[P N] f]. cbn [fst snd] in *.
    set (d := (p (S k) + - p k)%Q) in *. 
    destruct (altb 0%Q (P + d)%Q) eqn:E1; [apply altb_Q_true in E1|apply altb_Q_false in E1];
    destruct (altb (N + d)%Q 0%Q) eqn:E2; try (apply altb_Q_true in E2); try (apply altb_Q_false in E2);
    (destruct (altb _ (- h)%Q) eqn:E3; [apply altb_Q_true in E3|apply altb_Q_false in E3]; cbn [fst snd]; [try lra|]);
    (destruct (altb h _) eqn:E4; [apply altb_Q_true in E4|apply altb_Q_false in E4]; cbn [fst snd]; try lra).
  Qed.

  (** The accumulators measure the distance from the extreme since the last selection on that side. *)
  Lemma acc_meaning k :
    (exists i, i <= k /\ since upb k i /\ (accP k == p k - p i)%Q) /\
    (forall i, i <= k -> since upb k i -> (p k - p i <= accP k)%Q) /\
    (exists i, i <= k /\ since downb k i /\ (accN k == p k - p i)%Q) /\
    (forall i, i <= k -> since downb k i -> (accN k <= p k - p i)%Q).
  Proof.
    induction k as [|k IH].
    - cbn. assert (forall U, U 0%nat = false \/ True -> since U 0 0) as H0 by (intros U _ u; lia).
      repeat split.
      + exists 0%nat. repeat split; auto. cbn. lra.
      + intros i Hi _. replace i with 0%nat by lia. cbn. lra.
      + exists 0%nat. repeat split; auto. cbn. lra.
      + intros i Hi _. replace i with 0%nat by lia. cbn. lra.
    - destruct IH as ((iP & HiP & SP & EP) & UP & (iN & HiN & SN & EN) & UN).
      pose proof (acc_bounds k) as [BP BN].
      assert (forall U i, since U (S k) i -> i <= k -> U (S k) = false) as Hno.
      { intros U i Hs Hi. destruct (U (S k)) eqn:E; auto. specialize (Hs (S k) E). lia. }
      assert (forall U, since U (S k) (S k)) as Hself by (intros U u _ ?; lia).
      assert (forall U i, U (S k) = false -> since U k i -> since U (S k) i) as Hext.
      { intros U i E Hs u Hu Hle. destruct (Nat.eq_dec u (S k)); [subst; congruence|]. apply Hs; auto; lia. }
      assert (forall U i, since U (S k) i -> since U k i) as Hback.
      { intros U i Hs u Hu Hle. apply Hs; auto. }
      set (d := (p (S k) + - p k)%Q).
      (* facts about the accumulators after the step *)
      assert (HP : (upb (S k) = true /\ accP (S k) == 0)%Q \/
        (upb (S k) = false /\ (accP k + d <= accP (S k) /\ 0 <= accP (S k) /\ (accP (S k) == accP k + d \/ accP (S k) == 0)))%Q).
      { unfold upb, accP. cbn [acc]. fold d. destruct (acc k) as [[P N] f]. cbn [fst snd].
        destruct (altb 0%Q (P + d)%Q) eqn:E1; [apply altb_Q_true in E1|apply altb_Q_false in E1];
        (destruct (altb _ (- h)%Q); [|destruct (altb h _)]); cbn [fst snd];
        ((left; split; [reflexivity|]; lra) || (right; repeat split; try lra; (now left; lra) || (right; lra))). }
      assert (HN : (downb (S k) = true /\ accN (S k) == 0)%Q \/
        (downb (S k) = false /\ (accN (S k) <= accN k + d /\ accN (S k) <= 0 /\ (accN (S k) == accN k + d \/ accN (S k) == 0)))%Q).
      { unfold downb, accN. cbn [acc]. fold d. destruct (acc k) as [[P N] f]. cbn [fst snd].
        destruct (altb (N + d)%Q 0%Q) eqn:E1; [apply altb_Q_true in E1|apply altb_Q_false in E1];
        (destruct (altb _ (- h)%Q); [|destruct (altb h _)]); cbn [fst snd];
        ((left; split; [reflexivity|]; lra) || (right; repeat split; try lra; (now left; lra) || (right; lra))). }
      repeat split.
      + destruct HP as [[EU E]|(EU & _ & _ & [E|E])].
        * exists (S k). repeat split; auto. lra.
        * exists iP. repeat split; [lia|auto|]. unfold d in E. lra.
        * exists (S k). repeat split; auto. lra.
      + intros i Hi Hs. destruct (Nat.eq_dec i (S k)) as [->|Hne].
        * destruct HP as [[EU E]|(EU & E1 & E2 & _)]; lra.
        * assert (i <= k) by lia. pose proof (Hno _ _ Hs ltac:(lia)) as Hf.
          destruct HP as [[EU E]|(EU & E1 & E2 & _)]; [congruence|].
          specialize (UP i ltac:(lia) (Hback _ _ Hs)). unfold d in *. lra.
      + destruct HN as [[EU E]|(EU & _ & _ & [E|E])].
        * exists (S k). repeat split; auto. lra.
        * exists iN. repeat split; [lia|auto|]. unfold d in E. lra.
        * exists (S k). repeat split; auto. lra.
      + intros i Hi Hs. destruct (Nat.eq_dec i (S k)) as [->|Hne].
        * destruct HN as [[EU E]|(EU & E1 & E2 & _)]; lra.
        * assert (i <= k) by lia. pose proof (Hno _ _ Hs ltac:(lia)) as Hf.
          destruct HN as [[EU E]|(EU & E1 & E2 & _)]; [congruence|].
          specialize (UN i ltac:(lia) (Hback _ _ Hs)). unfold d in *. lra.
  Qed.

  Lemma fired k : upb (S k) = true <-> (h < accP k + (p (S k) - p k))%Q.
  Proof.
    pose proof (acc_bounds k) as [BP BN]. unfold upb, accP, accN in *. cbn [acc].
    destruct (acc k) as [[P N] f]. cbn [fst snd] in *. set (d := (p (S k) + - p k)%Q).
    assert (Ed : (p (S k) - p k == d)%Q) by (unfold d; lra). rewrite Ed. clearbody d.
    destruct (altb 0%Q (P + d)%Q) eqn:E1; [apply altb_Q_true in E1|apply altb_Q_false in E1];
    destruct (altb (N + d)%Q 0%Q) eqn:E2; try (apply altb_Q_true in E2); try (apply altb_Q_false in E2);
    (destruct (altb _ (- h)%Q) eqn:E3; [apply altb_Q_true in E3|apply altb_Q_false in E3]; [|
      destruct (altb h _) eqn:E4; [apply altb_Q_true in E4|apply altb_Q_false in E4]]); cbn [fst snd];
    split; try discriminate; try reflexivity; try (intros; lra).
  Qed.
  Lemma fired_down k : downb (S k) = true <-> (accN k + (p (S k) - p k) < - h)%Q.
  Proof.
    pose proof (acc_bounds k) as [BP BN]. unfold downb, accP, accN in *. cbn [acc].
    destruct (acc k) as [[P N] f]. cbn [fst snd] in *. set (d := (p (S k) + - p k)%Q).
    assert (Ed : (p (S k) - p k == d)%Q) by (unfold d; lra). rewrite Ed. clearbody d.
    destruct (altb 0%Q (P + d)%Q) eqn:E1; [apply altb_Q_true in E1|apply altb_Q_false in E1];
    destruct (altb (N + d)%Q 0%Q) eqn:E2; try (apply altb_Q_true in E2); try (apply altb_Q_false in E2);
    (destruct (altb _ (- h)%Q) eqn:E3; [apply altb_Q_true in E3|apply altb_Q_false in E3]; [|
      destruct (altb h _) eqn:E4; [apply altb_Q_true in E4|apply altb_Q_false in E4]]); cbn [fst snd];
    split; try discriminate; try reflexivity; try (intros; lra).
  Qed.

  Lemma upb_rises n : rises h p n (fun k => upb k = true).
  Proof.
    intros [|k] Hk.
    - split; [discriminate|]. intros (i & Hi & _). lia.
    - rewrite fired. destruct (acc_meaning k) as ((i & Hi & Si & Ei) & U & _). split.
      + intros H. exists i. repeat split; [lia| |lra]. intros u Hu Hlt. apply Si; auto; lia.
      + intros (j & Hj & Sj & H). specialize (U j ltac:(lia)). 
        assert (since upb k j) as HS by (intros u Hu Hle; apply Sj; auto; lia). specialize (U HS). lra.
  Qed.
  Lemma downb_falls n : falls h p n (fun k => downb k = true).
  Proof.
    intros [|k] Hk.
    - split; [discriminate|]. intros (i & Hi & _). lia.
    - rewrite fired_down. destruct (acc_meaning k) as (_ & _ & (i & Hi & Si & Ei) & U). split.
      + intros H. exists i. repeat split; [lia| |lra]. intros u Hu Hlt. apply Si; auto; lia.
      + intros (j & Hj & Sj & H). specialize (U j ltac:(lia)). 
        assert (since downb k j) as HS by (intros u Hu Hle; apply Sj; auto; lia). specialize (U HS). lra.
  Qed.
  Lemma not_both k : upb k && downb k = false.
  Proof.
    destruct k as [|k]; auto. unfold upb, downb. cbn [acc]. destruct (acc k) as [[P N] f].
    destruct (altb _ (- h)%Q); [|destruct (altb h _)]; reflexivity.
  Qed.

  (** The model follows these accumulators. *)
  Lemma step_follows k st t : pos st = Fin (accP k) -> neg st = Fin (accN k) ->
    let st' := cusum_step h st t (Fin (p (S k) + - p k)%Q) in
    pos st' = Fin (accP (S k)) /\ neg st' = Fin (accN (S k)) /\
    picked st' = picked st ++ (if upb (S k) || downb (S k) then [t] else []).
  Proof.
    intros HP HN. unfold cusum_step. cbv zeta. rewrite HP, HN. unfold upb, downb, accP, accN in *. cbn [acc].
    destruct (acc k) as [[P N] f]. cbn [fst snd eadd aadd Arith_Q] in *. unfold py_max, py_min. cbn [eltb eopp].
    change (@a0 Q Arith_Q) with 0%Q. change (@aopp Q Arith_Q h) with (- h)%Q.
    set (d := (p (S k) + - p k)%Q).
    destruct (altb 0%Q (P + d)%Q); destruct (altb (N + d)%Q 0%Q); cbn [eltb];
      (destruct (altb _ (- h)%Q); [|destruct (altb h _)]); cbn; rewrite ?app_nil_r; auto.
  Qed.
End Crossings.

Definition at_ (l : list Q) (k : nat) : Q := nth k l 0%Q.

Lemma run_follows h (ps : list Q) : forall (rest : list (Z * Q)) k st,
  skipn (S k) ps = map snd rest -> k < length ps ->
  pos st = Fin (accP h (at_ ps) k) -> neg st = Fin (accN h (at_ ps) k) ->
  picked (run h (combine (map fst rest) (diff_from (Fin (at_ ps k)) (map (fun r => Fin (snd r)) rest))) st) =
  picked st ++ flat_map (fun jt => if upb h (at_ ps) (fst jt) || downb h (at_ ps) (fst jt) then [snd jt] else [])
     (combine (seq (S k) (length rest)) (map fst rest)).
Proof.
  induction rest as [|[t x] rest IH]; intros k st Hs Hk HP HN.
  - cbn. now rewrite app_nil_r.
  - cbn [map fst snd diff_from combine length seq flat_map]. 
    assert (Hlen : S k < length ps).
    { assert (length (skipn (S k) ps) > 0) by (rewrite Hs; cbn; lia). rewrite skipn_length in H. lia. }
    assert (Hx : at_ ps (S k) = x).
    { unfold at_. rewrite <- (firstn_skipn (S k) ps), Hs. cbn [map snd].
      rewrite app_nth2; rewrite firstn_length_le; try lia. now rewrite Nat.sub_diag. }
    cbn [run fold_left fst snd].
    change (esub (Fin x) (Fin (at_ ps k))) with (Fin (x + - at_ ps k)%Q).
    destruct (step_follows h (at_ ps) k st t HP HN) as (H1 & H2 & H3). rewrite Hx in *.
    specialize (IH (S k) (cusum_step h st t (Fin (x + - at_ ps k)%Q))).
    unfold run in IH. rewrite Hx in IH. rewrite IH; auto.
    + rewrite H3, app_assoc. reflexivity.
    + assert (skipn (S (S k)) ps = skipn 1 (skipn (S k) ps)) as ->.
      { clear. revert k. induction ps as [|a l IH]; intros [|k]; cbn; auto. destruct l; auto. apply IH. }
      now rewrite Hs.
Qed.

Lemma flat_map_sel {A} (f : nat -> bool) (l : list A) (d : A) : forall s,
  flat_map (fun jt => if f (fst jt) then [snd jt] else []) (combine (seq s (length l)) l) =
  map (fun k => nth (k - s) l d) (filter f (seq s (length l))).
Proof.
  induction l as [|a l IH]; intros s; auto. cbn [length seq combine flat_map filter fst snd].
  rewrite IH. assert (forall m, (forall k, In k m -> s < k) ->
    map (fun k => nth (k - S s) l d) m = map (fun k => nth (k - s) (a :: l) d) m) as Hm.
  { intros m Hm. apply map_ext_in. intros k Hk. specialize (Hm k Hk). now replace (k - s) with (S (k - S s)) by lia. }
  rewrite Hm. 2:{ intros k Hk. apply filter_In in Hk as [Hk _]. apply in_seq in Hk. lia. }
  destruct (f s); cbn [map app]; [|reflexivity]. f_equal. now rewrite Nat.sub_diag.
Qed.

Lemma c22 h (X : list (Z * Q)) : (0 <= h)%Q -> NoDup (map fst X) ->
  exists up down : nat -> bool,
    rises h (fun k => nth k (map snd X) 0%Q) (length X) (fun k => up k = true) /\
    falls h (fun k => nth k (map snd X) 0%Q) (length X) (fun k => down k = true) /\
    (forall k, up k && down k = false) /\
    cusum_transform h (map (fun r => (fst r, Fin (snd r))) X) =
      Ok (map (fun k => nth k (map fst X) 0%Z) (filter (fun k => up k || down k) (seq 0 (length X)))).
Proof.
  intros Hh HN. exists (upb h (at_ (map snd X))), (downb h (at_ (map snd X))).
  split; [apply upb_rises; auto|]. split; [apply downb_falls; auto|]. split; [apply not_both|].
  apply transform_ok. rewrite map_map. split; [exact HN|].
  destruct X as [|[t x] X]; [reflexivity|].
  cbn [map fst snd steps]. rewrite !map_map. cbn [fst snd].
  pose proof (run_follows h (x :: map snd X) X 0 init eq_refl ltac:(cbn; lia) eq_refl eq_refl) as H.
  unfold at_ in H at 1. cbn [nth] in H.
  etransitivity; [|symmetry; exact H]. cbn [picked init app].
  set (f := fun k => upb h (at_ (x :: map snd X)) k || downb h (at_ (x :: map snd X)) k).
  pose proof (flat_map_sel f (map fst X) 0%Z 1) as HF. rewrite map_length in HF.
  etransitivity; [|symmetry; exact HF].
  cbn [length seq filter].
  change (map (fun k => nth k (t :: map fst X) 0%Z) (filter f (seq 1 (length X))) =
          map (fun k => nth (k - 1) (map fst X) 0%Z) (filter f (seq 1 (length X)))).
  apply map_ext_in. intros k Hk. apply filter_In in Hk as [Hk _]. apply in_seq in Hk.
  destruct k; [lia|]. cbn. now rewrite Nat.sub_0_r.
Qed.

(** The specification determines the selected positions. *)
Lemma rises_unique h p n U V : rises h p n U -> rises h p n V -> forall k, k < n -> (U k <-> V k).
Proof.
  intros HU HV k. induction k as [k IH] using lt_wf_ind. intros Hk. rewrite (HU k Hk), (HV k Hk).
  split; intros (i & Hi & Hs & H); exists i; (repeat split; auto); intros u Hu Hlt; apply Hs; auto; apply IH; auto; lia.
Qed.
Lemma falls_unique h p n U V : falls h p n U -> falls h p n V -> forall k, k < n -> (U k <-> V k).
Proof.
  intros HU HV k. induction k as [k IH] using lt_wf_ind. intros Hk. rewrite (HU k Hk), (HV k Hk).
  split; intros (i & Hi & Hs & H); exists i; (repeat split; auto); intros u Hu Hlt; apply Hs; auto; apply IH; auto; lia.
Qed.

Lemma c23_exclusive h X st t d : (0 <= h)%Q -> cusum_loop h X = Ok st ->
  eltb (py_min (Fin a0) (eadd (neg st) d)) (eopp (Fin h)) && eltb (Fin h) (py_max (Fin a0) (eadd (pos st) d)) = false /\
  within h (cusum_step h st t d).
Proof. intros Hh H. apply c23 in H; auto. destruct (step_cases h st t d Hh H) as (H1 & H2 & _). auto. Qed.

Lemma c23_first {A} `{HA : Arith A} (h : A) X out : cusum_transform h X = Ok out -> subseq out (tl (map fst X)) /\ NoDup (map fst X).
Proof.
  intros H. apply transform_ok in H as [HN ->]. split; auto. destruct (run_picked h (steps X) init) as (s & Hs & E).
  rewrite E. cbn. now rewrite <- steps_fst.
Qed.

Lemma c22_ok {A} `{HA : Arith A} (h : A) X : NoDup (map fst X) -> exists out, cusum_transform h X = Ok out.
Proof. intros H. eexists. apply transform_ok. eauto. Qed.

Lemma subseq_sorted s l : subseq s l -> increasingZ l -> increasingZ s.
Proof.
  unfold increasingZ. induction 1; intros HS; [constructor|inversion HS; auto|].
  inversion HS; subst. constructor; auto. rewrite Forall_forall in *. eauto using subseq_in.
Qed.
Lemma c24_sorted {A} `{HA : Arith A} (h : A) X out : cusum_transform h X = Ok out -> increasingZ (map fst X) -> increasingZ out.
Proof.
  intros H HS. apply c23_first in H as [H _]. eapply subseq_sorted; eauto.
  destruct (map fst X); auto. cbn. unfold increasingZ in *. now inversion HS.
Qed.

(** ** A missing value restarts the filter *)

Lemma step_nan h st t : (0 <= h)%Q -> cusum_step h st t NaN = {| pos := Fin a0; neg := Fin a0; picked := picked st |}.
Proof.
  intros Hh. unfold cusum_step. assert (forall x : ext Q, eadd x NaN = NaN) as E by (intros []; auto). rewrite !E.
  unfold py_max, py_min, eltb, eopp.
  destruct (altb a0 (aopp h)) eqn:E1; [apply altb_Q_true in E1; cbn in E1; lra|].
  destruct (altb h a0) eqn:E2; [apply altb_Q_true in E2; cbn in E2; lra|]. reflexivity.
Qed.

Lemma run_picked_prefix (h : Q) l : forall p n pk, 
  picked (run h l {| pos := p; neg := n; picked := pk |}) = pk ++ picked (run h l {| pos := p; neg := n; picked := [] |}).
Proof.
  induction l as [|[t d] l IH]; intros p n pk; cbn; [now rewrite app_nil_r|].
  unfold run in *. cbn. unfold cusum_step. cbn [pos neg picked]. cbv zeta.
  destruct (eltb _ _); [|destruct (eltb _ _)]; rewrite IH; auto.
  - rewrite (IH _ _ ([] ++ [t])). rewrite app_assoc. reflexivity.
  - rewrite (IH _ _ ([] ++ [t])). rewrite app_assoc. reflexivity.
Qed.

Lemma run_from_nan h (B : series Q) pk : (0 <= h)%Q ->
  picked (run h (combine (map fst B) (diff_from NaN (map snd B))) {| pos := Fin a0; neg := Fin a0; picked := pk |}) =
  pk ++ picked (run h (steps B) init).
Proof.
  intros Hh. destruct B as [|[t v] B]; [cbn; now rewrite app_nil_r|].
  cbn [map fst snd diff_from combine steps]. unfold run at 1. cbn [fold_left fst snd].
  assert (esub v NaN = NaN) as -> by (destruct v; auto). rewrite step_nan by auto. cbn [picked].
  apply run_picked_prefix.
Qed.

Lemma esub_nan_l (x : ext Q) : esub NaN x = NaN.
Proof. destruct x; auto. Qed.

Lemma c22_missing h A t B out : (0 <= h)%Q ->
  cusum_transform h (A ++ (t, NaN) :: B) = Ok out ->
  exists a b, cusum_transform h A = Ok a /\ cusum_transform h B = Ok b /\ out = a ++ b.
Proof.
  intros Hh H. apply transform_ok in H as [HN ->]. rewrite map_app in HN. cbn in HN.
  exists (picked (run h (steps A) init)), (picked (run h (steps B) init)).
  assert (NoDup (map fst B)) as HB.
  { apply NoDup_remove_1 in HN. clear - HN. induction (map fst A); cbn in *; auto. inversion HN; auto. }
  split; [apply transform_ok; split; auto; eauto using NoDup_app_l|]. split; [apply transform_ok; auto|].
  destruct A as [|[t0 v0] A].
  - cbn [app steps]. cbn [steps run fold_left picked init app]. apply run_from_nan with (pk := []); auto.
  - cbn [app steps]. rewrite !map_app, diff_from_app, combine_app by now rewrite diff_from_length, !map_length.
    cbn [map fst snd diff_from combine]. rewrite run_app. unfold run at 1. cbn [fold_left fst snd].
    rewrite esub_nan_l, step_nan by auto. now apply run_from_nan.
Qed.
