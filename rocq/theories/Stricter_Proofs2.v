(** A lower minimum weight of the time decay. *)
From Coq Require Import QArith Qminmax Lqa Permutation.
From Verif Require Import QSum QSumFacts Series Boot_Spec Boot_Model Weights_Spec Weights_Model Weights_Proofs.
Local Open Scope nat_scope.

Lemma decayed_mono : forall c c' x, (-1 < c)%Q -> (c <= c')%Q -> (c' <= 1)%Q -> (0 <= x <= 1)%Q ->
  (decayed c x <= decayed c' x)%Q /\ ((c < c')%Q -> (x < 1)%Q -> (0 < decayed c' x)%Q -> (decayed c x < decayed c' x)%Q).
Proof.
  intros c c' x H1 H2 H3 H4. unfold decayed.
  assert (D : forall k, (-1 < k)%Q -> ((x - - k) / (1 - - k) == 1 - (1 - x) * / (1 + k))%Q) by (intros k Hk; field; lra).
  assert (I : forall k, (-1 < k)%Q -> (0 < / (1 + k))%Q /\ ((1 + k) * / (1 + k) == 1)%Q) by (intros k Hk; split; [apply Qinv_lt_0_compat; lra|apply Qmult_inv_r; lra]).
  destruct (Qle_bool 0 c) eqn:E1; [apply Qle_bool_iff in E1|assert (c < 0)%Q by (apply Qnot_le_lt; intros K; apply Qle_bool_iff in K; congruence)];
    (destruct (Qle_bool 0 c') eqn:E2; [apply Qle_bool_iff in E2|assert (c' < 0)%Q by (apply Qnot_le_lt; intros K; apply Qle_bool_iff in K; congruence)]); try (exfalso; lra).
  - split; intros; nra.
  - destruct (Qle_bool x (- c)) eqn:E3; [apply Qle_bool_iff in E3; split; intros; nra|]. assert (- c < x)%Q by (apply Qnot_le_lt; intros K; apply Qle_bool_iff in K; congruence).
    rewrite (D c H1). destruct (I c H1) as [I1 I2]. set (i := (/ (1 + c))%Q) in *. assert (1 < i)%Q by nra. split; intros; nra.
  - destruct (Qle_bool x (- c)) eqn:E3; destruct (Qle_bool x (- c')) eqn:E4;
      try (apply Qle_bool_iff in E3); try (apply Qle_bool_iff in E4);
      try (assert (- c < x)%Q by (apply Qnot_le_lt; intros K; apply Qle_bool_iff in K; congruence));
      try (assert (- c' < x)%Q by (apply Qnot_le_lt; intros K; apply Qle_bool_iff in K; congruence)); try (exfalso; lra).
    + split; intros; lra.
    + rewrite (D c') by lra. destruct (I c' ltac:(lra)) as [I1 I2]. set (i := (/ (1 + c'))%Q) in *. split; intros; nra.
    + rewrite (D c H1), (D c') by lra. destruct (I c H1) as [I1 I2]. destruct (I c' ltac:(lra)) as [J1 J2].
      set (i := (/ (1 + c))%Q) in *. set (j := (/ (1 + c'))%Q) in *.
      assert (K : (i - j == i * j * (c' - c))%Q).
      { transitivity (i * ((1 + c') * j) - j * ((1 + c) * i))%Q; [rewrite I2, J2; ring|ring]. }
      assert (0 < i * j)%Q by nra. assert (j <= i)%Q by nra. split; [nra|]. intros K1 K2 _. assert (j < i)%Q by nra. nra.
Qed.

Lemma us_inj : forall us us' : list (Z * Q), map (fun r => (fst r, Some (snd r))) us = map (fun r => (fst r, Some (snd r))) us' -> us = us'.
Proof.
  induction us as [|[a b] us IH]; intros [|[a' b'] us']; cbn; intros E; try discriminate; auto. injection E as -> -> E. f_equal. now apply IH.
Qed.

Lemma inc_perm : forall l m, increasingZ l -> increasingZ m -> Permutation l m -> l = m.
Proof.
  induction l as [|a l IH]; intros m I J P; [apply Permutation_nil in P; now subst|]. destruct m as [|b m]; [symmetry in P; apply Permutation_nil in P; discriminate|].
  inversion I as [|? ? I1 I2]; subst. inversion J as [|? ? J1 J2]; subst. rewrite Forall_forall in I2, J2.
  assert (a = b) as <-.
  { assert (X : In a (b :: m)) by (apply (Permutation_in _ P); now left). assert (Y : In b (a :: l)) by (symmetry in P; apply (Permutation_in _ P); now left).
    destruct X as [X|X]; [now symmetry|]. destruct Y as [Y|Y]; [exact Y|]. apply J2 in X. apply I2 in Y. lia. }
  f_equal. apply IH; auto. now apply Permutation_cons_inv in P.
Qed.

Lemma c101_decay : forall c c' samples out out', (-1 < c)%Q -> (c <= c')%Q -> (forall s e, In (s, e) samples -> (s <= e)%Z) ->
  decay_transform c (map (fun s => (fst s, Some (snd s))) samples) = Ok out ->
  decay_transform c' (map (fun s => (fst s, Some (snd s))) samples) = Ok out' ->
  map fst out = map fst out' /\
  forall t w w', In (t, w) out -> In (t, w') out' -> exists q q', w = Fin q /\ w' = Fin q' /\ (q <= q')%Q /\
    ((c < c')%Q -> (0 < q')%Q -> (exists t2 w2, In (t2, w2) out /\ (t < t2)%Z) -> (q < q')%Q).
Proof.
  intros c c' samples out out' Hc Hcc Ho H H'.
  assert (Hc' : (c' <= 1)%Q) by (unfold decay_transform in H'; destruct (Qle_bool c' 1) eqn:E; [now apply Qle_bool_iff in E|discriminate]).
  assert (Hc1 : (c <= 1)%Q) by lra.
  destruct (decay_general c samples out) as (us & A1 & A2 & A3 & A4 & A5 & A6); auto; [lra|].
  destruct (decay_general c' samples out') as (us' & B1 & B2 & B3 & B4 & B5 & B6); auto; [lra|].
  rewrite A1 in B1. injection B1 as B1. apply us_inj in B1. subst us'.
  split; [apply inc_perm; auto; rewrite A5, B5; reflexivity|].
  intros t w w' I I'. destruct (A6 t w I) as (q & -> & U & Q1). destruct (B6 t w' I') as (q' & -> & _ & Q2). exists q, q'.
  destruct (share_bounds us t A2 A3) as (S1 & _ & _ & _ & S5).
  rewrite linear_decayed in Q1 by auto. rewrite linear_decayed in Q2 by (auto; lra).
  destruct (decayed_mono c c' (share us t) Hc Hcc Hc' S1) as [M1 M2].
  split; [reflexivity|]. split; [reflexivity|]. split; [lra|]. intros K1 K2 (t2 & w2 & K3 & K4).
  rewrite Q1, Q2. apply M2; [exact K1| |lra]. apply S5. destruct (A6 t2 w2 K3) as (_ & _ & (u & U2) & _). eauto.
Qed.
