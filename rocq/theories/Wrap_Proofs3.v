(** Proofs about unions of features: no look-ahead. *)
From Coq Require Import Reals String.
From Verif Require Import Prelude PreludeFacts Series Feat_Model Feat_Spec Wrap_Model Wrap_Spec Wrap_Proofs2.
Local Open Scope nat_scope.

Definition cut (n : nat) (o : array R) : array R := match o with Table w t => Table w (firstn n t) | Flat v => Flat (firstn n v) end.

Lemma cut_weighted n w o : cut n (weighted w o) = weighted w (cut n o).
Proof. destruct w as [w|], o as [v|k t]; cbn; try reflexivity; now rewrite firstn_map. Qed.
Lemma cut_stack n N (l : list (array R)) : Forall (table_of N) l -> forall w t, List.length t = N ->
  foldM glue (cut n (Table w t)) (map (cut n) l) = match foldM glue (Table w t) l with Ok x => Ok (cut n x) | Err e => Err e end.
Proof.
  induction 1 as [|o l Ho _ IH]; intros w t Ht; [reflexivity|]. destruct o as [v|m b]; [destruct Ho|]. cbn in Ho.
  cbn [map foldM cut glue]. rewrite !firstn_length, Ht, Ho, !Nat.eqb_refl. cbn [bind].
  assert (G : glue_rows (firstn n t) (firstn n b) = firstn n (glue_rows t b)) by (unfold glue_rows; now rewrite <- combine_firstn, firstn_map).
  rewrite G. apply IH. rewrite glue_rows_length; congruence.
Qed.
Lemma cut_hstack n N (l : list (array R)) : Forall (table_of N) l ->
  hstack (Nat.min n N) (map (cut n) l) = match hstack N l with Ok x => Ok (cut n x) | Err e => Err e end.
Proof.
  destruct l as [|o l]; intros H.
  - cbn. f_equal. f_equal. clear H. revert n. induction N as [|N IH]; intros [|n]; cbn; try reflexivity. now rewrite <- IH.
  - inversion H as [|? ? Ho Hl]; subst. destruct o as [v|m t]; [destruct Ho|]. exact (cut_stack n N l Hl m t Ho).
Qed.

Lemma union_no_look_ahead weights parts X n :
  Forall (fun p => no_look_ahead (snd p) /\ one_per_row (snd p)) parts -> well_formed X ->
  let fitted := map (fun p => (fst p, as_column (snd p))) parts in
  union_transform f_index weights fitted (head n X) =
    match union_transform f_index weights fitted X with Ok R => Ok (firstn n R) | Err e => Err e end.
Proof.
  intros Hp Hw fitted. unfold union_transform, plain_transform.
  assert (HM : mapM (fun p => do x <- snd p (head n X) ;; Ok (weighted (weight_of weights (fst p)) x)) fitted =
    match mapM (fun p => do x <- snd p X ;; Ok (weighted (weight_of weights (fst p)) x)) fitted with Ok outs => Ok (map (cut n) outs) | Err e => Err e end /\
    forall outs, mapM (fun p => do x <- snd p X ;; Ok (weighted (weight_of weights (fst p)) x)) fitted = Ok outs -> Forall (table_of (List.length (f_index X))) outs).
  { subst fitted. induction Hp as [|[name T] parts [H1 H2] _ IH]; [split; [reflexivity|intros outs [= <-]; constructor]|]. cbn [map fst snd mapM].
    cbn [fst snd] in H1, H2. unfold as_column at 1 3 5. rewrite (H1 X n Hw). destruct (T X) as [c|] eqn:E; cbn [bind]; [|split; [reflexivity|intros outs H; discriminate]].
    destruct IH as [IH1 IH2]. rewrite IH1. destruct (mapM (fun p => do x <- snd p X ;; _) (map _ parts)) as [outs|] eqn:Em; cbn [bind]; [|split; [reflexivity|intros ? H; discriminate]].
    split.
    - cbn [map]. rewrite cut_weighted. cbn [cut]. now rewrite firstn_map.
    - intros os [= <-]. constructor; [|now apply IH2]. destruct (weight_of weights name); cbn; rewrite !map_length; exact (H2 X c Hw E). }
  destruct HM as [-> HT]. destruct (mapM _ fitted) as [outs|] eqn:Em; cbn [bind]; [|reflexivity]. specialize (HT outs eq_refl).
  assert (L : List.length (f_index (head n X)) = Nat.min n (List.length (f_index X))) by (cbn; apply firstn_length). rewrite L, (cut_hstack n _ _ HT).
  destruct (hstack_tables _ _ HT) as (w & t & -> & Lt & _). cbn [bind cut make_frame].
  rewrite !make_series_ok; [|now symmetry|rewrite L, firstn_length; lia]. cbn [head f_index]. now rewrite combine_firstn.
Qed.
