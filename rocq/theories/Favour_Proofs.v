(** Proofs for C102: the sequential bootstrap favours samples that overlap little with the draws so far. *)
From Coq Require Import Lqa.
From Verif Require Import QSum QSumFacts Boot_Model Boot_Spec Boot_Proofs Boot_Proofs2.
Local Open Scope nat_scope.

Section Favour.
  Variables (T : nat) (cov : nat -> nat -> bool).
  Notation U := (uniqueness_after T cov).

  Lemma U_le1 drawn j : (U drawn j <= 1)%Q.
  Proof.
    unfold uniqueness_after. destruct (rows_of T cov j) as [|t r] eqn:E; [apply Qle_refl|].
    apply (qmean_bounds _ 0 1); [discriminate|].
    intros x Hx. apply in_map_iff in Hx. destruct Hx as [s [<- _]].
    pose proof (Qn_nonneg (count (cov s) drawn)) as H. split.
    - apply Qlt_le_weak, Qinv_pos. lra.
    - change 1%Q with (/ 1)%Q at 2. apply Qinv_anti; lra.
  Qed.

  Lemma count_none {A} (p : A -> bool) l : (forall x, In x l -> p x = false) -> count p l = 0.
  Proof.
    unfold count. induction l as [|x l IH]; intros H; [reflexivity|]. cbn [filter]. rewrite (H x (or_introl eq_refl)).
    apply IH. intros y Hy. apply H. now right.
  Qed.

  Lemma U_alone drawn j : (forall s, In s drawn -> ~ overlap T cov s j) -> (U drawn j == 1)%Q.
  Proof.
    intros H. unfold uniqueness_after. destruct (rows_of T cov j) as [|t r] eqn:E; [reflexivity|].
    rewrite (qmean_map_ext _ (fun _ => 1%Q)).
    - unfold qmean. rewrite qsum_map_const, map_length. field. apply Qn_neq0. cbn. lia.
    - intros s Hs. rewrite <- E in Hs. apply rows_of_In in Hs. destruct Hs as [Hs1 Hs2].
      rewrite count_none; [reflexivity|]. intros x Hx. destruct (cov s x) eqn:C; [|reflexivity].
      exfalso. apply (H x Hx). exists s. auto.
  Qed.

  Lemma U_touched drawn i : (exists s, In s drawn /\ overlap T cov s i) -> (U drawn i < 1)%Q.
  Proof.
    intros [s [Hs [t [Ht [C1 C2]]]]]. unfold uniqueness_after.
    assert (In t (rows_of T cov i)) as HI by (apply rows_of_In; auto).
    destruct (rows_of T cov i) as [|t0 r] eqn:E; [destruct HI|]. rewrite <- E in *.
    unfold qmean. rewrite map_length.
    assert (0 < Qn (length (rows_of T cov i)))%Q as HL by (apply Qn_pos; rewrite E; cbn; lia).
    apply Qlt_shift_div_r; [exact HL|].
    setoid_replace (1 * Qn (length (rows_of T cov i)))%Q with (qsum (map (fun _ => 1%Q) (rows_of T cov i)))
      by (rewrite qsum_map_const; ring).
    apply qsum_map_lt.
    - intros x _. pose proof (Qn_nonneg (count (cov x) drawn)). change 1%Q with (/ 1)%Q at 2. apply Qinv_anti; lra.
    - exists t. split; [exact HI|]. pose proof (Qn_ge1 _ (count_pos (cov t) drawn s Hs C1)).
      change 1%Q with (/ 1)%Q at 2. apply Qinv_anti_lt; lra.
  Qed.

  Lemma U_drawn drawn j : In j drawn -> rows_of T cov j <> [] -> (U drawn j <= 1 # 2)%Q.
  Proof.
    intros Hj HR. unfold uniqueness_after. destruct (rows_of T cov j) as [|t r] eqn:E; [congruence|].
    apply (qmean_bounds _ 0 (1 # 2)); [discriminate|].
    intros x Hx. apply in_map_iff in Hx. destruct Hx as [s [<- Hs]].
    rewrite <- E in Hs. apply rows_of_In in Hs. destruct Hs as [_ Hs].
    pose proof (Qn_ge1 _ (count_pos (cov s) drawn j Hj Hs)) as H. split.
    - apply Qlt_le_weak, Qinv_pos. lra.
    - change (1 # 2)%Q with (/ (2 # 1))%Q. apply Qinv_anti; lra.
  Qed.

  Lemma U_same_rows drawn i j : (forall t, t < T -> cov t i = cov t j) -> U drawn i = U drawn j.
  Proof.
    intros H. unfold uniqueness_after. replace (rows_of T cov i) with (rows_of T cov j); [reflexivity|].
    unfold rows_of. apply filter_ext_in. intros t Ht. apply in_seq in Ht. symmetry. apply H. lia.
  Qed.
End Favour.

(** Mean of squares: (sum u)^2 <= n * sum u^2, strict unless all the numbers are equal. *)
Lemma square_identity {A} (f : A -> Q) (c : Q) l :
  (qsum (map (fun x => (f x - c) * (f x - c)) l) == qsum (map (fun x => f x * f x) l) - 2 * c * qsum (map f l) + Qn (length l) * (c * c))%Q.
Proof.
  induction l as [|x l IH]; [cbn [map length]; rewrite Qn_0; unfold qsum; cbn [fold_right]; ring|].
  cbn [map length]. rewrite !qsum_cons, IH, Qn_S. ring.
Qed.
Lemma square_nonneg (x : Q) : (0 <= x * x)%Q.
Proof. destruct (Qlt_le_dec x 0); nra. Qed.

Lemma mean_square {A} (f : A -> Q) l : l <> [] ->
  let S := qsum (map f l) in (S * S <= Qn (length l) * qsum (map (fun x => f x * f x) l))%Q /\
  ((exists x y, In x l /\ In y l /\ ~ f x == f y)%Q -> (S * S < Qn (length l) * qsum (map (fun x => f x * f x) l))%Q).
Proof.
  intros HL S. assert (0 < Qn (length l))%Q as Hn by (apply Qn_pos; destruct l; [congruence|cbn; lia]).
  pose proof (square_identity f (S / Qn (length l)) l) as I. fold S in I.
  set (n := Qn (length l)) in *. set (V := qsum (map (fun x => f x * f x)%Q l)) in *.
  assert (n * qsum (map (fun x => (f x - S / n) * (f x - S / n)) l) == n * V - S * S)%Q as E.
  { rewrite I. field. lra. }
  split.
  - assert (0 <= qsum (map (fun x => (f x - S / n) * (f x - S / n)) l))%Q as P.
    { apply qsum_nonneg. intros q Hq. apply in_map_iff in Hq. destruct Hq as [x [<- _]]. apply square_nonneg. }
    nra.
  - intros [x [y [Hx [Hy Hd]]]].
    assert (exists z, In z l /\ ~ f z == S / n)%Q as [z [Hz Hn0]].
    { destruct (Qeq_dec (f x) (S / n)) as [e|e]; [|exists x; auto]. exists y. split; [exact Hy|]. intros e'. apply Hd.
      rewrite e, e'. reflexivity. }
    assert (0 < qsum (map (fun x => (f x - S / n) * (f x - S / n)) l))%Q as P.
    { setoid_replace 0%Q with (qsum (map (fun _ => 0%Q) l)) by (rewrite qsum_map_const; ring).
      apply qsum_map_lt; [intros; apply square_nonneg|]. exists z. split; [exact Hz|].
      destruct (Q_dec (f z) (S / n)) as [[?|?]|?]; [nra|nra|contradiction]. }
    nra.
Qed.

Section Run.
  Variables (m : mat) (rng : nat -> list Q -> nat -> list nat) (sl : option Z) (u : Z)
    (sample : list nat) (lg : list (list Q * list nat)).
  Hypotheses (HF : fair_choice rng) (HN : 0 < ncols m) (Hu : (0 < u)%Z)
    (HR : seq_bootstrap m rng sl u = Ok (sample, lg)).
  Variables (k : nat) (p : list Q) (choices : list nat).
  Hypothesis (HK : nth_error lg k = Some (p, choices)).
  Let drawn := concat (map snd (firstn k lg)).
  Let U := uniqueness_after (nrows m) (entry m) drawn.
  Let S := qsum (map U (seq 0 (ncols m))).

  Lemma prob_value j q : nth_error p j = Some q -> (q == U j / S)%Q.
  Proof. intros H. destruct (c16 m rng sl u sample lg HF HN Hu HR k p choices HK) as [_ V]. exact (V j q H). Qed.
  Lemma S_pos : (0 < S)%Q.
  Proof.
    apply qsum_pos.
    - intros x Hx. apply in_map_iff in Hx. destruct Hx as [j [<- _]]. apply U_pos.
    - destruct (ncols m); [lia|discriminate].
  Qed.

  Lemma order_le i j a b : nth_error p i = Some a -> nth_error p j = Some b -> ((a <= b)%Q <-> (U i <= U j)%Q).
  Proof.
    intros Ha Hb. rewrite (prob_value i a Ha), (prob_value j b Hb). pose proof S_pos as P. split; intros H.
    - apply (Qmult_le_r _ _ (/ S)); [apply Qinv_pos, P|]. exact H.
    - apply (Qmult_le_r _ _ (/ S)) in H; [exact H|apply Qinv_pos, P].
  Qed.

  Lemma expected : (qdot p (map U (seq 0 (ncols m))) == qsum (map (fun j => U j * U j) (seq 0 (ncols m))) / S)%Q.
  Proof.
    destruct (c16 m rng sl u sample lg HF HN Hu HR k p choices HK) as [HL _].
    assert (forall (l : list Q) s, (forall j q, nth_error l j = Some q -> q == U (s + j) / S)%Q ->
      (qdot l (map U (seq s (length l))) == qsum (map (fun j => U j * U j) (seq s (length l))) / S)%Q) as G.
    { pose proof S_pos as P. induction l as [|q l IH]; intros s H; [unfold qdot, qsum; cbn [length seq map combine fold_right]; field; lra|].
      cbn [length seq map]. unfold qdot in *. cbn [combine map fst snd]. rewrite !qsum_cons.
      rewrite (IH (Datatypes.S s)); [|intros j x Hx; rewrite (H (Datatypes.S j) x Hx); replace (s + Datatypes.S j) with (Datatypes.S s + j) by lia; reflexivity].
      rewrite (H 0 q eq_refl). replace (s + 0) with s by lia. field. lra. }
    rewrite <- HL. apply G. intros j q Hq. apply prob_value. exact Hq.
  Qed.

  Lemma c102_favours :
    (forall i j a b, nth_error p i = Some a -> nth_error p j = Some b -> ((a <= b)%Q <-> (U i <= U j)%Q)) /\
    (qmean (map U (seq 0 (ncols m))) <= qdot p (map U (seq 0 (ncols m))))%Q /\
    ((exists i j, i < ncols m /\ j < ncols m /\ ~ (U i == U j)%Q) ->
      (qmean (map U (seq 0 (ncols m))) < qdot p (map U (seq 0 (ncols m))))%Q).
  Proof.
    split; [apply order_le|].
    assert (seq 0 (ncols m) <> []) as HS by (destruct (ncols m); [lia|discriminate]).
    pose proof (mean_square U (seq 0 (ncols m)) HS) as [M1 M2]. rewrite expected. unfold qmean. rewrite map_length.
    pose proof S_pos as P. fold S in M1, M2 |- *.
    assert (0 < Qn (length (seq 0 (ncols m))))%Q as Hn by (apply Qn_pos; rewrite seq_length; exact HN).
    set (n := Qn (length (seq 0 (ncols m)))) in *. set (V := qsum (map (fun x => U x * U x)%Q (seq 0 (ncols m)))) in *. split.
    - apply Qle_shift_div_l; [exact P|]. setoid_replace (S / n * S)%Q with (S * S / n)%Q by (field; lra).
      apply Qle_shift_div_r; [exact Hn|]. lra.
    - intros [i [j [Hi [Hj Hd]]]]. assert (S * S < n * V)%Q as Q0.
      { apply M2. exists i, j. repeat split; [apply in_seq; lia|apply in_seq; lia|exact Hd]. }
      apply Qlt_shift_div_l; [exact P|]. setoid_replace (S / n * S)%Q with (S * S / n)%Q by (field; lra).
      apply Qlt_shift_div_r; [exact Hn|]. lra.
  Qed.

  Lemma order_lt i j a b : nth_error p i = Some a -> nth_error p j = Some b -> (U i < U j)%Q -> (a < b)%Q.
  Proof.
    intros Ha Hb H. destruct (Qlt_le_dec a b) as [|L]; [assumption|].
    apply (order_le j i b a Hb Ha) in L. lra.
  Qed.

  Lemma c102_untouched j b : nth_error p j = Some b -> (forall s, In s drawn -> ~ overlap (nrows m) (entry m) s j) ->
    (forall i a, nth_error p i = Some a -> (a <= b)%Q /\
      ((exists s, In s drawn /\ overlap (nrows m) (entry m) s i) -> (a < b)%Q) /\
      (In i drawn -> rows_of (nrows m) (entry m) i <> [] -> (2 * a <= b)%Q)).
  Proof.
    intros Hb HO i a Ha. pose proof (U_alone (nrows m) (entry m) drawn j HO) as E1. fold U in E1. repeat split.
    - apply (order_le i j a b Ha Hb). rewrite E1. apply U_le1.
    - intros H. apply (order_lt i j a b Ha Hb). rewrite E1. apply U_touched. exact H.
    - intros Hi HR0. pose proof (U_drawn (nrows m) (entry m) drawn i Hi HR0) as E2. fold (U i) in E2.
      rewrite (prob_value i a Ha), (prob_value j b Hb), E1. pose proof S_pos as P.
      apply Qle_shift_div_l; [exact P|]. setoid_replace (2 * (U i / S) * S)%Q with (2 * U i)%Q by (field; lra). lra.
  Qed.

  Lemma c102_same_rows i j a b : nth_error p i = Some a -> nth_error p j = Some b ->
    (forall t, t < nrows m -> entry m t i = entry m t j) -> (a == b)%Q.
  Proof.
    intros Ha Hb H. rewrite (prob_value i a Ha), (prob_value j b Hb). unfold U.
    rewrite (U_same_rows (nrows m) (entry m) drawn i j H). reflexivity.
  Qed.
End Run.
