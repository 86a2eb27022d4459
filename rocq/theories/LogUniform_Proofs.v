From Coq Require Import Reals Lra.
From Verif Require Import LogUniform_Model.
Open Scope R_scope.

Section LU.
  Variables a b : R.
  Hypothesis Ha : 0 < a.
  Hypothesis Hab : a < b.

  Lemma lnba_pos : 0 < ln (b / a).
  Proof. rewrite <- ln_1. apply ln_increasing; [lra|]. apply Rmult_lt_reg_r with a; [lra|]. field_simplify; lra. Qed.

  Lemma raw_cdf_ln x : 0 < x -> raw_cdf a b x = (ln x - ln a) / ln (b / a).
  Proof.
    intros Hx. unfold raw_cdf. f_equal. unfold Rdiv. rewrite ln_mult by (auto; now apply Rinv_0_lt_compat).
    rewrite ln_Rinv by exact Ha. ring.
  Qed.

  Lemma raw_cdf_a : raw_cdf a b a = 0.
  Proof. rewrite raw_cdf_ln by exact Ha. unfold Rdiv. ring. Qed.
  Lemma raw_cdf_b : raw_cdf a b b = 1.
  Proof. unfold raw_cdf. pose proof lnba_pos. field. lra. Qed.
  Lemma raw_cdf_inc x y : 0 < x -> x < y -> raw_cdf a b x < raw_cdf a b y.
  Proof.
    intros Hx Hxy. rewrite !raw_cdf_ln by lra. pose proof lnba_pos.
    unfold Rdiv. apply Rmult_lt_compat_r; [now apply Rinv_0_lt_compat|]. pose proof (ln_increasing x y Hx Hxy). lra.
  Qed.

  Lemma cdf_inside x : a <= x <= b -> cdf a b x = raw_cdf a b x.
  Proof.
    intros Hx. unfold cdf. destruct (Rle_dec b x).
    - assert (x = b) as -> by lra. now rewrite raw_cdf_b.
    - destruct (Rle_dec x a); [|reflexivity]. assert (x = a) as -> by lra. now rewrite raw_cdf_a.
  Qed.

  Lemma cdf_facts :
    (forall x, x <= a -> cdf a b x = 0) /\ (forall x, b <= x -> cdf a b x = 1) /\
    (forall x y, a <= x -> x < y -> y <= b -> cdf a b x < cdf a b y) /\
    (forall x, 0 <= cdf a b x <= 1).
  Proof.
    assert (forall x y, a <= x -> x < y -> y <= b -> cdf a b x < cdf a b y) as Hinc.
    { intros x y H1 H2 H3. rewrite !cdf_inside by lra. apply raw_cdf_inc; lra. }
    assert (forall x, x <= a -> cdf a b x = 0) as H0.
    { intros x Hx. unfold cdf. destruct (Rle_dec b x); [lra|]. destruct (Rle_dec x a); [reflexivity|lra]. }
    assert (forall x, b <= x -> cdf a b x = 1) as H1.
    { intros x Hx. unfold cdf. destruct (Rle_dec b x); [reflexivity|lra]. }
    repeat split; auto.
    - destruct (Rle_dec x a); [rewrite H0; lra|]. rewrite <- (H0 a) by lra.
      destruct (Rle_dec b x); [rewrite (H1 x), (H0 a); lra|]. left. apply Hinc; lra.
    - destruct (Rle_dec b x); [rewrite H1; lra|]. rewrite <- (H1 b) by lra.
      destruct (Rle_dec x a); [rewrite (H0 x), (H1 b); lra|]. left. apply Hinc; lra.
  Qed.

  Lemma cdf_scale_free c x y : 0 < c -> a <= x <= b -> a <= c * x <= b -> a <= y <= b -> a <= c * y <= b ->
    cdf a b (c * x) - cdf a b x = cdf a b (c * y) - cdf a b y.
  Proof.
    intros Hc H1 H2 H3 H4. rewrite !cdf_inside by assumption. rewrite !raw_cdf_ln by lra.
    rewrite !ln_mult by lra. pose proof lnba_pos. field. lra.
  Qed.
End LU.

Lemma cdf_default x : 1 <= x <= exp 1 -> let (a, b) := log_uniform 1 None in cdf a b x = ln x.
Proof.
  intros [H1 H2]. unfold log_uniform, cdf, raw_cdf. destruct (Rle_dec (exp 1) x).
  - assert (x = exp 1) by lra. subst. now rewrite ln_exp.
  - destruct (Rle_dec x 1).
    + assert (x = 1) by lra. subst. now rewrite ln_1.
    + replace (x / 1) with x by field. replace (exp 1 / 1) with (exp 1) by field. rewrite ln_exp. field.
Qed.

Lemma cdf_bounds a b : 0 < a -> a < b -> let (lo, hi) := log_uniform a (Some b) in
  (forall x, cdf lo hi x = 0 <-> x <= a) /\ (forall x, cdf lo hi x = 1 <-> b <= x).
Proof.
  intros Ha Hab. cbn. destruct (cdf_facts a b Ha Hab) as (H0 & H1 & Hm & _). split; intros x; (split; [|auto]).
  - intros E. destruct (Rle_dec x a) as [H|H]; [exact H|exfalso]. destruct (Rle_dec b x) as [Hb|Hb]; [rewrite H1 in E by exact Hb; lra|].
    pose proof (Hm a x (Rle_refl _) ltac:(lra) ltac:(lra)). rewrite (H0 a (Rle_refl _)) in H2. lra.
  - intros E. destruct (Rle_dec b x) as [H|H]; [exact H|exfalso]. destruct (Rle_dec x a) as [Hb|Hb]; [rewrite H0 in E by exact Hb; lra|].
    pose proof (Hm x b ltac:(lra) ltac:(lra) (Rle_refl _)). rewrite (H1 b (Rle_refl _)) in H2. lra.
Qed.
