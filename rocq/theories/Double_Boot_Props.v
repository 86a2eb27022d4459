(** C107: the sequential bootstrap in the floating-point arithmetic of numpy and scipy. *)
From Coq Require Import Reals ZArith QArith Qreals Lia Lra Permutation List.
From Flocq Require Import Core.
From Verif Require Import Prelude QSum Boot_Spec Boot_Model Double_Model Double_Spec Double_Proofs Double_Proofs2 Double_Boot_Model Double_Boot_Proofs
  Double_Boot_Proofs2 Double_Boot_Proofs3 Double_Boot_Proofs4 Double_Boot_Proofs5.
Import ListNotations.
Local Open Scope R_scope.

(** The average uniqueness of a sample with at least one bar: in (0, 1] in spite of the roundings, and within 2^-25 of the exact mean. *)
Theorem C107_average_uniqueness : forall m j,
  (Z.of_nat (nrows m) <= 2 ^ 26)%Z -> (Z.of_nat (ncols m) <= 2 ^ 52)%Z -> (j < ncols m)%nat -> rows_of (nrows m) (entry m) j <> [] ->
  exists u, nth_error (calc_average_uniqueness_double m) j = Some (Some u) /\ 0 < u <= 1 /\
    within_rel (/ 2 ^ 25) u (Q2R (mean_inverse_concurrency (nrows m) (entry m) (ncols m) j)).
Proof.
  intros m j HT HN Hj Hne. destruct (average_uniqueness_double_bounds m j ltac:(lia) HN Hj Hne) as (u & Hu & _ & B).
  exists u. split; [exact Hu|split; [pose proof (bpow_gt_0 radix2 (-53)); lra|]]. now apply (average_uniqueness_double_rel m j u).
Qed.
Print Assumptions C107_average_uniqueness.

(** Further draws never raise the computed uniqueness of a sample, not even by a rounding; it stays in (0, 1] and within 2^-22 of
    the exact value although the counts are kept in single precision. *)
Theorem C107_update : forall m js drawn extra i j,
  (Z.of_nat (nrows m) <= 2 ^ 26)%Z -> (Z.of_nat (length (drawn ++ extra)) <= 2 ^ 38)%Z ->
  nth_error js i = Some j -> rows_of (nrows m) (entry m) j <> [] ->
  exists v v', nth_error (calc_update_avg_unique_double m js drawn) i = Some (Some v) /\
    nth_error (calc_update_avg_unique_double m js (drawn ++ extra)) i = Some (Some v') /\
    0 < v' <= v /\ v <= 1 /\ within_rel (/ 2 ^ 22) v (Q2R (uniqueness_after (nrows m) (entry m) drawn j)).
Proof. exact update_decreases. Qed.
Print Assumptions C107_update.

(** What one round of draws has to satisfy, [drawn] being the draws of the rounds before and [xs] its uniform numbers: the
    probabilities are close to those computed exactly and from scratch, and each number picks the sample in whose stretch of [0, 1) it
    falls, up to the same error. *)
Definition faithful_round (m : mat) (drawn : list nat) (xs p : list R) (ch : list nat) : Prop :=
  let P := draw_probability (nrows m) (entry m) (ncols m) drawn in
  let F k := Q2R (qsum (map P (seq 0 k))) in
  length p = ncols m /\ length ch = length xs /\
  (forall j q, nth_error p j = Some q -> 0 < q /\ within_rel (/ 2 ^ 20) q (Q2R (P j))) /\
  (forall i x j, nth_error xs i = Some x -> nth_error ch i = Some j ->
     (j < ncols m)%nat /\ F j * (1 - / 2 ^ 19) <= x < F (S j) * (1 + / 2 ^ 19)).

(** The bootstrap never fails on the check that the probabilities add up to one, returns as many samples as asked for, and every
    round is faithful to the draws before it: the roundings of many incremental updates do not accumulate. *)
Theorem C107_bootstrap : forall m np_sum uniform sample_length u,
  let len := match sample_length with Some l => l | None => Z.of_nat (ncols m) end in
  (Z.of_nat (nrows m) <= 2 ^ 26)%Z -> (0 < ncols m)%nat -> (Z.of_nat (ncols m) <= 2 ^ 22)%Z ->
  some_order np_sum -> uniform_numbers uniform -> (0 < u <= 2 ^ 62)%Z -> (0 <= len <= 2 ^ 38)%Z ->
  exists sample rounds, seq_bootstrap_double np_sum m uniform sample_length u = Ok (sample, rounds) /\
    Z.of_nat (length sample) = len /\ sample = concat (map snd rounds) /\ Z.of_nat (length rounds) = ((len + u - 1) / u)%Z /\
    forall k p ch, nth_error rounds k = Some (p, ch) ->
      faithful_round m (concat (map snd (firstn k rounds))) (uniform k (Z.to_nat (Z.min (len - Z.of_nat k * u) u))) p ch.
Proof.
  intros m np_sum uniform sl u len HT HN HN' Hs Hu Hpos Hlen.
  destruct (seq_bootstrap_d m HT HN HN' np_sum Hs uniform Hu len u Hpos Hlen sl eq_refl) as (sample & lg & E & L & C & LR & Hlog & _).
  exists sample, lg. split; [exact E|]. split; [rewrite L; lia|]. split; [exact C|].
  split; [rewrite LR; apply Z2Nat.id; apply Z.div_pos; lia|].
  intros k p ch Hk. destruct (Hlog k p ch Hk) as (Ep & En & Ech & Lch & Fch). rewrite <- Lch.
  destruct (probabilities_ok m HT HN HN' np_sum Hs _ En) as (_ & B & Lp & _ & A). cbv zeta in *. rewrite <- Ep in *.
  unfold faithful_round. split; [exact Lp|]. split; [destruct (Hu k (length ch)) as [H _]; now rewrite H|]. split.
  - intros j q Hq. split.
    + rewrite Forall_forall in B. pose proof (B q (nth_error_In _ _ Hq)). pose proof (bpow_gt_0 radix2 (-62)). lra.
    + apply rel_within. now apply A.
  - intros i x j Hx Hj. split; [rewrite Forall_forall in Fch; apply Fch; eapply nth_error_In; eauto|].
    rewrite Ech, nth_error_map, Hx in Hj. cbn [option_map] in Hj. injection Hj as Hj. rewrite Ep in Hj.
    apply (draw_interval m HT HN HN' np_sum Hs _ x j En); auto.
    destruct (Hu k (length ch)) as [_ HF]. rewrite Forall_forall in HF. apply HF. eapply nth_error_In; eauto.
Qed.
Print Assumptions C107_bootstrap.

(** ** The hypotheses can be met *)
Definition left_sum (l : list R) : R := match l with [] => 0 | x :: r => fold_left (fun s x => to_double (s + x)) r x end.
Example C107_left_sum : some_order left_sum.
Proof.
  intros [|x r] H; [congruence|]. clear H. unfold left_sum.
  assert (G : forall r l s, added l s -> added (l ++ r) (fold_left (fun s x => to_double (s + x)) r s)).
  { clear. induction r as [|y r IH]; intros l s Hs; cbn [fold_left]; [now rewrite app_nil_r|].
    change (y :: r) with ([y] ++ r). rewrite app_assoc. apply IH. eapply added_two; [apply Permutation_refl|exact Hs|apply added_one|apply to_double_nearest]. }
  apply (G r [x] x). apply added_one.
Qed.
Example C107_halves : uniform_numbers (fun _ n => repeat (/ 2) n).
Proof. intros i n. split; [apply repeat_length|]. apply Forall_forall. intros x Hx. apply repeat_spec in Hx. subst. lra. Qed.

(* three samples: bars 0-1, bars 1-2, bar 3 *)
Definition example_matrix : mat :=
  {| nrows := 4; ncols := 3;
     entry := fun t j => match j with O => Nat.leb t 1 | S O => Nat.leb 1 t && Nat.leb t 2 | S (S O) => Nat.eqb t 3 | _ => false end |}.
(* every sample is equally likely at first, so 1/2 picks the second one; then the exact probabilities are 3/9, 2/9 and 4/9, and 1/2 picks
   the second one again, whose stretch is 3/9 to 5/9 *)
Example C107_example : exists p1 p2 rest r3,
  seq_bootstrap_double left_sum example_matrix (fun _ n => repeat (/ 2) n) None 1 = Ok (1%nat :: 1%nat :: rest, (p1, [1%nat]) :: (p2, [1%nat]) :: r3) /\
  length rest = 1%nat.
Proof.
  destruct (C107_bootstrap example_matrix left_sum (fun _ n => repeat (/ 2) n) None 1 ltac:(cbn; lia) ltac:(cbn; lia) ltac:(cbn; lia)
    C107_left_sum C107_halves ltac:(lia) ltac:(cbn; lia)) as (sample & rounds & E & L & C & LR & H).
  destruct rounds as [|(p1, c1) [|(p2, c2) r3]]; [cbn in LR; discriminate LR|cbn in LR; discriminate LR|].
  assert (E19 : / 2 ^ 19 = / 524288) by (rewrite (pow_IZR 2 19); reflexivity).
  destruct (H 0%nat p1 c1 eq_refl) as (_ & L1 & _ & I1). cbn in L1. destruct c1 as [|j1 [|? ?]]; [discriminate L1| |discriminate L1].
  destruct (I1 0%nat _ j1 eq_refl eq_refl) as (B1 & I1'). rewrite E19 in I1'. clear I1.
  assert (j1 = 1%nat) as ->.
  { cbn in B1. destruct j1 as [|[|[|?]]]; [exfalso| reflexivity|exfalso|lia]; revert I1'; vm_compute (qsum _); vm_compute (qsum (map _ (seq 0 (S _)))); unfold Q2R; cbn -[Rinv IZR]; lra. }
  destruct (H 1%nat p2 c2 eq_refl) as (_ & L2 & _ & I2). cbn in L2. destruct c2 as [|j2 [|? ?]]; [discriminate L2| |discriminate L2].
  destruct (I2 0%nat _ j2 eq_refl eq_refl) as (B2 & I2'). rewrite E19 in I2'. clear I2.
  assert (j2 = 1%nat) as ->.
  { cbn in B2. destruct j2 as [|[|[|?]]]; [exfalso| reflexivity|exfalso|lia]; revert I2'; vm_compute (qsum _); vm_compute (qsum (map _ (seq 0 (S _)))); unfold Q2R; cbn -[Rinv IZR]; lra. }
  exists p1, p2, (concat (map snd r3)), r3. rewrite E, C. split; [reflexivity|].
  assert (length sample = 3%nat) as Ls by (cbn in L; lia). rewrite C in Ls. cbn in Ls. cbn. lia.
Qed.
