(** Facts about finite sums of rationals. *)
From Coq Require Import Lqa Permutation.
From Verif Require Export QSum.
Open Scope Q_scope.

Lemma Qn_0 : Qn 0 == 0. Proof. reflexivity. Qed.
Lemma Qn_S n : Qn (S n) == Qn n + 1.
Proof. unfold Qn. rewrite Nat2Z.inj_succ. unfold Z.succ. rewrite inject_Z_plus. reflexivity. Qed.
Lemma Qn_add a b : Qn (a + b) == Qn a + Qn b.
Proof. unfold Qn. rewrite Nat2Z.inj_add, inject_Z_plus. reflexivity. Qed.
Lemma Qn_nonneg n : 0 <= Qn n.
Proof. unfold Qn, Qle. simpl. lia. Qed.
Lemma Qn_pos n : (0 < n)%nat -> 0 < Qn n.
Proof. intros. unfold Qn, Qlt. simpl. lia. Qed.
Lemma Qn_ge1 n : (1 <= n)%nat -> 1 <= Qn n.
Proof. intros. unfold Qn, Qle. simpl. lia. Qed.
Lemma Qn_le a b : (a <= b)%nat -> Qn a <= Qn b.
Proof. intros. unfold Qn, Qle. simpl. lia. Qed.
Lemma Qn_lt a b : (a < b)%nat -> Qn a < Qn b.
Proof. intros. unfold Qn, Qlt. simpl. lia. Qed.
Lemma Qn_inj a b : Qn a == Qn b -> a = b.
Proof. unfold Qn, Qeq. simpl. lia. Qed.
Lemma Qn_neq0 n : (0 < n)%nat -> ~ Qn n == 0.
Proof. intros H E. pose proof (Qn_pos n H). rewrite E in H0. apply (Qlt_irrefl _ H0). Qed.

Lemma qsum_cons x l : qsum (x :: l) = x + qsum l. Proof. reflexivity. Qed.
Lemma qsum_app a b : qsum (a ++ b) == qsum a + qsum b.
Proof. induction a as [|x a IH]; simpl; [ring|]. rewrite IH. ring. Qed.
Lemma qsum_ext l l' : Forall2 Qeq l l' -> qsum l == qsum l'.
Proof. induction 1; simpl; [reflexivity|]. rewrite H, IHForall2. reflexivity. Qed.
Lemma qsum_map_ext {A} (f g : A -> Q) l : (forall x, In x l -> f x == g x) -> qsum (map f l) == qsum (map g l).
Proof.
  induction l as [|x l IH]; intros H; simpl; [reflexivity|].
  rewrite (H x (or_introl eq_refl)), IH; [reflexivity|]. intros; apply H; now right.
Qed.
Lemma qsum_map_le {A} (f g : A -> Q) l : (forall x, In x l -> f x <= g x) -> qsum (map f l) <= qsum (map g l).
Proof.
  induction l as [|x l IH]; intros H; simpl; [apply Qle_refl|].
  apply Qplus_le_compat; [apply H; now left|apply IH; intros; apply H; now right].
Qed.
Lemma qsum_map_lt {A} (f g : A -> Q) l : (forall x, In x l -> f x <= g x) -> (exists x, In x l /\ f x < g x) ->
  qsum (map f l) < qsum (map g l).
Proof.
  induction l as [|x l IH]; intros H (y & Hy & Hlt); [destruct Hy|]. simpl.
  destruct Hy as [->|Hy].
  - apply Qplus_lt_le_compat; [exact Hlt|]. apply qsum_map_le. intros; apply H; now right.
  - rewrite (Qplus_comm (f x)), (Qplus_comm (g x)). apply Qplus_lt_le_compat; [|apply H; now left].
    apply IH; [intros; apply H; now right|]. eauto.
Qed.
Lemma qsum_map_const {A} (c : Q) (l : list A) : qsum (map (fun _ => c) l) == Qn (length l) * c.
Proof.
  induction l as [|x l IH]; simpl; [rewrite Qn_0; ring|]. rewrite IH, Qn_S. ring.
Qed.
Lemma qsum_map_plus {A} (f g : A -> Q) l : qsum (map (fun x => f x + g x) l) == qsum (map f l) + qsum (map g l).
Proof. induction l as [|x l IH]; simpl; [ring|]. rewrite IH. ring. Qed.
Lemma qsum_map_scale {A} (c : Q) (f : A -> Q) l : qsum (map (fun x => c * f x) l) == c * qsum (map f l).
Proof. induction l as [|x l IH]; simpl; [ring|]. rewrite IH. ring. Qed.
Lemma qsum_nonneg l : (forall x, In x l -> 0 <= x) -> 0 <= qsum l.
Proof.
  induction l as [|x l IH]; intros H; simpl; [apply Qle_refl|].
  pose proof (H x (or_introl eq_refl)). assert (0 <= qsum l) by (apply IH; intros; apply H; now right). lra.
Qed.
Lemma qsum_pos l : (forall x, In x l -> 0 < x) -> l <> [] -> 0 < qsum l.
Proof.
  destruct l as [|x l]; intros H Hne; [congruence|]. simpl.
  pose proof (H x (or_introl eq_refl)).
  assert (0 <= qsum l) by (apply qsum_nonneg; intros; apply Qlt_le_weak, H; now right). lra.
Qed.
Lemma qsum_perm l l' : Permutation l l' -> qsum l == qsum l'.
Proof. induction 1; simpl; try (rewrite IHPermutation); try ring. rewrite IHPermutation1, IHPermutation2. reflexivity. Qed.
Lemma qsum_filter {A} (p : A -> bool) (f : A -> Q) l :
  qsum (map f (filter p l)) == qsum (map (fun x => if p x then f x else 0) l).
Proof. induction l as [|x l IH]; simpl; [reflexivity|]. destruct (p x); simpl; rewrite IH; ring. Qed.
Lemma qsum_div (c : Q) l : qsum (map (fun x => x / c) l) == qsum l / c.
Proof. induction l as [|x l IH]; simpl; [unfold Qdiv; ring|]. rewrite IH. unfold Qdiv. ring. Qed.

Lemma Qinv_pos x : 0 < x -> 0 < / x. Proof. apply Qinv_lt_0_compat. Qed.
Lemma Qinv_anti x y : 0 < x -> x <= y -> / y <= / x.
Proof.
  intros Hx Hxy. assert (0 < y) by lra.
  setoid_replace (/ y) with (x * (/ x * / y)) by (field; lra).
  setoid_replace (/ x) with (y * (/ x * / y)) at 2 by (field; lra).
  apply Qmult_le_compat_r; [exact Hxy|]. pose proof (Qinv_pos x Hx). pose proof (Qinv_pos y H). nra.
Qed.
Lemma Qinv_anti_lt x y : 0 < x -> x < y -> / y < / x.
Proof.
  intros Hx Hxy. assert (0 < y) by lra.
  setoid_replace (/ y) with (x * (/ x * / y)) by (field; lra).
  setoid_replace (/ x) with (y * (/ x * / y)) at 2 by (field; lra).
  apply Qmult_lt_compat_r; [|exact Hxy]. pose proof (Qinv_pos x Hx). pose proof (Qinv_pos y H). nra.
Qed.
Lemma Qdiv_pos x y : 0 < x -> 0 < y -> 0 < x / y.
Proof. intros. unfold Qdiv. pose proof (Qinv_pos y H0). nra. Qed.

(** Means. *)
Lemma qmean_bounds l lo hi : l <> [] -> (forall x, In x l -> lo <= x <= hi) -> lo <= qmean l <= hi.
Proof.
  intros Hne H. unfold qmean.
  assert (0 < Qn (length l)) as Hn by (apply Qn_pos; destruct l; [congruence|simpl; lia]).
  assert (Qn (length l) * lo <= qsum l) as H1.
  { rewrite <- (map_id l) at 2. rewrite <- qsum_map_const. apply qsum_map_le. intros; apply H; auto. }
  assert (qsum l <= Qn (length l) * hi) as H2.
  { rewrite <- (map_id l) at 1. rewrite <- qsum_map_const. apply qsum_map_le. intros; apply H; auto. }
  split.
  - apply Qle_shift_div_l; [exact Hn|]. rewrite Qmult_comm. exact H1.
  - apply Qle_shift_div_r; [exact Hn|]. rewrite Qmult_comm. exact H2.
Qed.
