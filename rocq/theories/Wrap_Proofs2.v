(** Proofs about the feature union. *)
From Coq Require Import String.
From Verif Require Import Prelude PreludeFacts Num Series Pipe_Model Wrap_Model Wrap_Spec.
Local Open Scope nat_scope.

Lemma make_series_ok {V} times (values : list V) : List.length times = List.length values -> make_series times values = Ok (combine times values).
Proof. intros E. unfold make_series. now rewrite E, Nat.eqb_refl. Qed.
Lemma make_series_inv {V} times (values : list V) s : make_series times values = Ok s -> List.length times = List.length values /\ s = combine times values.
Proof. unfold make_series. destruct (Nat.eqb_spec (List.length times) (List.length values)); [|discriminate]. intros [= <-]. auto. Qed.

Section Union.
  Context {A : Type} {HA : Arith A} {F Y : Type} (times : F -> list Z).
  Notation cell := (ext A).

  Lemma glue_rows_length (a b : list (list cell)) : List.length a = List.length b -> List.length (glue_rows a b) = List.length a.
  Proof. intros E. unfold glue_rows. rewrite map_length, combine_length. lia. Qed.
  Lemma glue_rows_nth (a b : list (list cell)) i : List.length a = List.length b -> nth i (glue_rows a b) [] = nth i a [] ++ nth i b [].
  Proof.
    revert b i. induction a as [|x a IH]; intros [|y b] i E; try discriminate; [destruct i; reflexivity|].
    destruct i as [|i]; [reflexivity|]. cbn. apply IH. now injection E.
  Qed.

  (** Stacking matrices of n rows. *)
  Lemma stack_tables n (l : list (array A)) : Forall (table_of n) l -> forall w t, List.length t = n ->
    exists w' t', foldM glue (Table w t) l = Ok (Table w' t') /\ List.length t' = n /\
      forall i, nth i t' [] = nth i t [] ++ joined l i.
  Proof.
    induction 1 as [|o l Ho _ IH]; intros w t Ht.
    - exists w, t. cbn [foldM joined flat_map]. repeat split; auto. intros i. now rewrite app_nil_r.
    - destruct o as [v|m b]; [destruct Ho|]. cbn in Ho. cbn [foldM glue]. rewrite Ht, Ho, Nat.eqb_refl. cbn [bind].
      destruct (IH (w + m) (glue_rows t b)) as (w' & t' & E & L & N); [rewrite glue_rows_length; congruence|].
      exists w', t'. split; [exact E|]. split; [exact L|]. intros i. rewrite N, glue_rows_nth by congruence.
      cbn [joined flat_map table_rows]. now rewrite app_assoc.
  Qed.
  Lemma hstack_tables n (l : list (array A)) : Forall (table_of n) l ->
    exists w t, hstack n l = Ok (Table w t) /\ List.length t = n /\ forall i, nth i t [] = joined l i.
  Proof.
    destruct l as [|o l]; intros H.
    - exists 0, (repeat [] n). repeat split; [apply repeat_length|]. intros i. cbn. clear. revert i. induction n; intros [|i]; cbn; auto.
    - inversion H as [|? ? Ho Hl]; subst. destruct o as [v|m t]; [destruct Ho|]. cbn in Ho.
      destruct (stack_tables n l Hl m t Ho) as (w & t' & E & L & N). exists w, t'. auto.
  Qed.
  (** Stacking flat arrays: end to end. *)
  Lemma stack_flat (l : list (array A)) : Forall flat l -> forall u, foldM glue (Flat u) l = Ok (Flat (u ++ flat_map values l)).
  Proof.
    induction 1 as [|o l Ho _ IH]; intros u; [cbn; now rewrite app_nil_r|].
    destruct o as [v|]; [|destruct Ho]. cbn [foldM glue bind flat_map values]. rewrite IH. now rewrite app_assoc.
  Qed.
  (** What can be stacked at all. *)
  Lemma stack_table_inv (l : list (array A)) : forall w t x, foldM glue (Table w t) l = Ok x -> Forall (table_of (List.length t)) l.
  Proof.
    induction l as [|o l IH]; intros w t x H; [constructor|]. cbn [foldM] in H. destruct o as [v|m b]; cbn [glue] in H; [discriminate|].
    destruct (Nat.eqb_spec (List.length t) (List.length b)) as [E|]; [|discriminate]. cbn [bind] in H.
    constructor; [now cbn|]. apply IH in H. rewrite glue_rows_length in H; auto.
  Qed.
  Lemma stack_flat_inv (l : list (array A)) : forall u x, foldM glue (Flat u) l = Ok x -> Forall flat l.
  Proof.
    induction l as [|o l IH]; intros u x H; [constructor|]. cbn [foldM] in H. destruct o as [v|m b]; cbn [glue] in H; [|discriminate].
    cbn [bind] in H. constructor; [exact I|]. eapply IH, H.
  Qed.
  Lemma glue_err x y e : @glue A x y = Err e -> e = ValueError.
  Proof. destruct x, y; cbn; try congruence. destruct (Nat.eqb _ _); congruence. Qed.
  Lemma stack_err (l : list (array A)) : forall x e, foldM glue x l = Err e -> e = ValueError.
  Proof.
    induction l as [|o l IH]; intros x e H; [discriminate|]. cbn [foldM] in H. destruct (glue x o) as [y|e'] eqn:E; cbn [bind] in H; [eapply IH, H|].
    injection H as <-. eapply glue_err, E.
  Qed.

  Lemma Forall2_map {T U} (f : T -> U) (P : T -> U -> Prop) : (forall x y, P x y <-> y = f x) -> forall l l', Forall2 P l l' <-> l' = map f l.
  Proof.
    intros H l. induction l as [|x l IH]; intros l'; split; intros E.
    - now inversion E.
    - subst. constructor.
    - inversion E as [|? y ? r Hy Hr]; subst. apply H in Hy. apply IH in Hr. subst. reflexivity.
    - subst. constructor; [now apply H|now apply IH].
  Qed.
  Lemma weight_in_of (weights : dict cell) name : weight_in weights name = weight_of weights name.
  Proof.
    unfold weight_in, weight_of. induction weights as [|[k w] l IH]; [reflexivity|]. cbn [find fst lookup]. destruct (String.eqb k name) eqn:E.
    - reflexivity.
    - exact IH.
  Qed.
  Lemma scaled_array_weighted w (x o : array A) : scaled_array w x o <-> o = weighted w x.
  Proof.
    assert (E : forall c c' : cell, scaled w c c' <-> c' = match w with Some u => emul c u | None => c end) by (intros c c'; destruct w; reflexivity).
    pose proof (Forall2_map _ _ E) as E1. pose proof (Forall2_map _ _ E1) as E2.
    destruct x as [v|n t], o as [v'|n' t']; cbn [scaled_array].
    - rewrite E1. destruct w as [u|]; cbn [weighted]; [|rewrite map_id]; split; congruence.
    - destruct w; cbn [weighted]; split; [tauto|discriminate|tauto|discriminate].
    - destruct w; cbn [weighted]; split; [tauto|discriminate|tauto|discriminate].
    - rewrite E2. destruct w as [u|]; cbn [weighted].
      + split; [intros [-> ->]; reflexivity|intros H; injection H as -> ->; now split].
      + rewrite (map_ext _ (fun l : list cell => l) (fun l => map_id l) t), map_id.
        split; [intros [-> ->]; reflexivity|intros H; injection H as -> ->; now split].
  Qed.
  Lemma outputs_mapM weights fitted X outs : outputs (F := F) weights fitted X outs ->
    mapM (fun p => do x <- snd p X ;; Ok (weighted (weight_of weights (fst p)) x)) fitted = Ok outs.
  Proof.
    induction 1 as [|p o fitted outs (x & E & Ho) _ IH]; [reflexivity|]. apply scaled_array_weighted in Ho. subst o. rewrite weight_in_of.
    cbn [mapM]. rewrite E. cbn [bind]. now rewrite IH.
  Qed.
  Lemma mapM_outputs weights fitted X outs : mapM (fun p => do x <- snd p X ;; Ok (weighted (weight_of weights (fst p)) x)) fitted = Ok outs ->
    outputs (F := F) weights fitted X outs.
  Proof.
    revert outs. induction fitted as [|p fitted IH]; intros outs H; cbn [mapM] in H; [injection H as <-; constructor|].
    destruct (snd p X) as [x|] eqn:E; [|discriminate]. cbn [bind] in H. destruct (mapM _ fitted) as [os|] eqn:Em; [|discriminate]. injection H as <-.
    constructor; [exists x; split; [exact E|]; apply scaled_array_weighted; now rewrite weight_in_of|]. now apply IH.
  Qed.

  (** Matrices of one row per row of the frame: the frame of the rows side by side, with the frame's index. *)
  Lemma union_tables weights fitted (X : F) outs : outputs weights fitted X outs -> Forall (table_of (List.length (times X))) outs ->
    exists R, union_transform times weights fitted X = Ok R /\ map fst R = times X /\
      forall i t row, nth_error R i = Some (t, row) -> row = joined outs i.
  Proof.
    intros Ho Ht. unfold union_transform, plain_transform. rewrite (outputs_mapM _ _ _ _ Ho). cbn [bind].
    destruct (hstack_tables _ _ Ht) as (w & t & -> & L & N). cbn [bind make_frame]. rewrite make_series_ok by congruence.
    eexists. split; [reflexivity|]. split.
    - assert (L' : List.length (times X) <= List.length t) by lia. clear -L'. revert t L'. induction (times X) as [|z l IH]; intros [|r t] L; cbn in *; try lia; auto.
      f_equal. apply IH. lia.
    - intros i z row H. rewrite <- N. clear -H. revert t i H. induction (times X) as [|z' l IH]; intros [|r t] [|i] H; cbn in *; try discriminate.
      + now injection H.
      + apply (IH t i H).
  Qed.
  (** The union succeeds only for such matrices, for flat arrays of that many values together, or without any part. *)
  Lemma union_accepts weights fitted (X : F) outs : outputs weights fitted X outs ->
    (exists R, union_transform times weights fitted X = Ok R) <->
    Forall (table_of (List.length (times X))) outs \/ Forall flat outs /\ List.length (flat_map values outs) = List.length (times X).
  Proof.
    intros Ho. split.
    - intros [R H]. unfold union_transform, plain_transform in H. rewrite (outputs_mapM _ _ _ _ Ho) in H. cbn [bind] in H.
      destruct outs as [|o l]; [left; constructor|]. cbn [hstack] in H. destruct o as [u|w t].
      + right. destruct (foldM glue (Flat u) l) as [x|] eqn:E; [|discriminate]. pose proof (stack_flat_inv _ _ _ E) as Hf.
        rewrite (stack_flat _ Hf) in E. injection E as <-. cbn [bind make_frame] in H. apply make_series_inv in H. destruct H as [H _].
        split; [constructor; [exact I|exact Hf]|]. cbn [flat_map values]. now rewrite map_length in H.
      + left. destruct (foldM glue (Table w t) l) as [x|] eqn:E; [|discriminate]. pose proof (stack_table_inv _ _ _ _ E) as Ht.
        destruct (stack_tables (List.length t) l Ht w t eq_refl) as (w' & t' & E' & L & _). rewrite E in E'. injection E' as ->.
        cbn [bind make_frame] in H. apply make_series_inv in H. destruct H as [H _]. rewrite H, L. constructor; [reflexivity|exact Ht].
    - intros [Ht|[Hf Hl]].
      + destruct (union_tables weights fitted X outs Ho Ht) as (R & H & _). now exists R.
      + unfold union_transform, plain_transform. rewrite (outputs_mapM _ _ _ _ Ho). cbn [bind]. destruct outs as [|o l].
        * cbn in Hl. cbn [hstack bind make_frame]. rewrite make_series_ok by (now rewrite repeat_length). eauto.
        * inversion Hf as [|? ? H1 H2]; subst. destruct o as [u|]; [|destruct H1]. cbn [hstack]. rewrite (stack_flat _ H2). cbn [bind make_frame].
          rewrite make_series_ok; [eauto|]. rewrite map_length. now symmetry.
  Qed.
  (** If the parts succeed and the union does not, that is a ValueError. *)
  Lemma union_error weights fitted (X : F) outs e : outputs weights fitted X outs -> union_transform times weights fitted X = Err e -> e = ValueError.
  Proof.
    intros Ho H. unfold union_transform, plain_transform in H. rewrite (outputs_mapM _ _ _ _ Ho) in H. cbn [bind] in H.
    destruct (hstack _ outs) as [x|e'] eqn:E; cbn [bind] in H.
    - destruct x; cbn [make_frame] in H; unfold make_series in H; destruct (Nat.eqb _ _); congruence.
    - injection H as ->. destruct outs; [discriminate|]. eapply stack_err, E.
  Qed.
  (** If a part fails, so does the union. *)
  Lemma union_part_fails weights fitted (X : F) p e : In p fitted -> snd p X = Err e -> exists e', union_transform times weights fitted X = Err e'.
  Proof.
    intros Hp He. unfold union_transform, plain_transform. destruct (mapM _ fitted) as [outs|e'] eqn:E; cbn [bind]; [|eauto].
    apply mapM_outputs in E. exfalso. clear -Hp He E. induction E as [|p' o fitted outs (x & E & _) _ IH]; [destruct Hp|]. destruct Hp as [->|Hp]; [congruence|auto].
  Qed.

  (** The identity transformer. *)
  Lemma identity_union (X : frame A) : identity_transform X = X /\
    forall name (X0 : frame A) (y : option Y), exists fitted, union_fit [(name, Some identity_part)] X0 y = Ok fitted /\ union_transform index [] fitted X = Ok (rows X).
  Proof.
    split; [reflexivity|]. intros name X0 y. eexists. split; [reflexivity|]. unfold union_transform, plain_transform. cbn. rewrite make_series_ok by (unfold index; now rewrite !map_length).
    f_equal. unfold index. induction (rows X) as [|[t r] l IH]; [reflexivity|]. cbn. now rewrite IH.
  Qed.

  (** fit_transform never sees the labels. *)

  (** For transformers that make no use of labels, fit_transform is fit and then transform. *)
  Lemma fit_then_transform weights (parts : list (part A F Y)) X y fitted R :
    Forall (fun p => forall t, snd p = Some t -> unsupervised t) parts ->
    union_fit_transform times weights parts X y = Ok (fitted, R) <->
    union_fit parts X y = Ok fitted /\ union_transform times weights fitted X = Ok R.
  Proof.
    intros Hu. unfold union_fit_transform, plain_fit_transform, union_fit, union_transform, plain_transform.
    assert (Ha : Forall (fun p => unsupervised (snd p)) (active parts)).
    { induction Hu as [|[n o] l Hp _ IH]; cbn [active flat_map snd fst]; [constructor|]. destruct o as [t|]; [|exact IH].
      cbn [app]. constructor; [apply Hp; reflexivity|exact IH]. }
    remember (active parts) as l eqn:El. clear El Hu.
    assert (HM : forall both, mapM (fun p : string * transformer A F Y => do f <- snd p X None ;; do x <- f X ;; Ok ((fst p, f), weighted (weight_of weights (fst p)) x)) l = Ok both <->
      mapM (fun p : string * transformer A F Y => do f <- snd p X y ;; Ok (fst p, f)) l = Ok (map fst both) /\
      mapM (fun p => do x <- snd p X ;; Ok (weighted (weight_of weights (fst p)) x)) (map fst both) = Ok (map snd both)).
    { induction Ha as [|p l Hp _ IH]; intros both.
      - cbn [mapM]. split; [intros [= <-]; auto|]. intros [H1 H2]. destruct both; [reflexivity|discriminate].
      - cbn [mapM]. rewrite (Hp X None y). destruct (snd p X y) as [f|] eqn:Ef; cbn [bind]; [|split; [intros H; discriminate H|intros [H _]; discriminate H]].
        split.
        + destruct (f X) as [x|] eqn:Ex; [|discriminate]. cbn [bind]. destruct (mapM _ l) as [bs|] eqn:Eb; [|discriminate]. intros [= <-].
          destruct (proj1 (IH bs) eq_refl) as [E1 E2]. rewrite E1. cbn [bind map fst snd mapM]. rewrite Ex. cbn [bind]. now rewrite E2.
        + intros [H1 H2]. destruct both as [|[[n g] o] bs]; cbn [map fst snd] in H1, H2;
          destruct (mapM (fun p : string * transformer A F Y => do f <- snd p X y ;; Ok (fst p, f)) l) as [fs|] eqn:El; try discriminate. cbn [bind] in H1. injection H1 as <- <- ->.
          cbn [mapM fst snd] in H2. destruct (f X) as [x|] eqn:Ex; [|discriminate]. cbn [bind] in H2.
          destruct (mapM _ (map fst bs)) as [os|] eqn:Eo; [|discriminate]. injection H2 as <- ->.
          assert (Hb := proj2 (IH bs) (conj eq_refl Eo)). cbn [bind]. now rewrite Hb. }
    unfold transformer in HM.
    split.
    - match goal with |- (do _ <- (do _ <- mapM ?f ?k ;; _) ;; _) = _ -> _ => destruct (mapM f k) as [both|] eqn:E end; [|intros H; discriminate H]. cbn [bind].
      destruct (proj1 (HM both) eq_refl) as [E1 E2]. destruct (hstack (List.length (times X)) (map snd both)) as [x|] eqn:Eh; [|discriminate]. cbn [bind fst snd].
      destruct (make_frame (times X) x) as [r|] eqn:Er; [|discriminate]. cbn [bind]. intros [= <- <-]. rewrite E1, E2. cbn [bind]. rewrite Eh. cbn [bind]. now rewrite Er.
    - intros [H1 H2]. destruct (mapM (fun p => do x <- snd p X ;; Ok (weighted (weight_of weights (fst p)) x)) fitted) as [outs|] eqn:Eo; [|discriminate]. cbn [bind] in H2.
      assert (L : List.length outs = List.length fitted) by (eapply mapM_length, Eo).
      assert (E1 : map fst (combine fitted outs) = fitted /\ map snd (combine fitted outs) = outs).
      { clear -L. revert outs L. induction fitted as [|a l IH]; intros [|b r] L; try discriminate; [auto|]. injection L as L. destruct (IH r L) as [E1 E2]. cbn. now rewrite E1, E2. }
      destruct E1 as [E1 E2]. rewrite (proj2 (HM (combine fitted outs))); [|now rewrite E1, E2]. cbn [bind]. rewrite E2, E1.
      destruct (hstack _ outs) as [x|]; [|discriminate]. cbn [bind fst snd] in *. now rewrite H2.
  Qed.
End Union.
