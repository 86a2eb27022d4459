(** The difference of two exponential averages in doubles. *)
From Coq Require Import Reals ZArith Lra Lia List String.
From Verif Require Import Prelude PreludeFacts Num Series DailyVol_Model Feat_Model Feat_Proofs Feat_Proofs3 Ewm_Model Ewm_Proofs
  Double_Model Double_Spec Double_Proofs Double_Proofs2 Double_Bet_Proofs2 Double_Vpin_Model Double_Z_Model Double_Ewm_Model Double_Ewm_Proofs Double_Bound_Spec Double_Bound_Proofs Double_Ewm_Bound_Proofs.
Import ListNotations.
Local Open Scope R_scope.
Local Notation length := List.length.

Lemma scan_len {A S} (u : S -> ext A -> S) o l : forall s, length (scan_g u o s l) = length l.
Proof. induction l as [|x l IH]; intros s; [reflexivity|]. cbn. now rewrite IH. Qed.
Lemma ewm_mean_len span l : length (ewm_mean span l) = length l.
Proof. unfold ewm_mean. now rewrite map_length, seq_length. Qed.
(** An exact average is no larger than the values. *)
Lemma mean_below span M l i a : 1 <= span -> (span + 1) ^ 2 <= 2 ^ 48 -> powerRZ 2 (-1000) <= M -> held_below M l -> nth_error (@ewma_double R DA span l) i = Some (Fin a) -> Rabs a <= 2 * M.
Proof.
  intros Hs H2 HM Hl. unfold ewma_double.
  assert (G : forall l, held_below M l -> forall s s', paired span M s s' -> forall i a, nth_error (scan_g (@ewma_step R DA (@wt_factor R DA span)) (@ewma_out R) s' l) i = Some (Fin a) -> Rabs a <= 2 * M).
  { clear l Hl i a. induction l as [|z l IH]; intros Hl s s' P i a Ha; [destruct i; discriminate|]. cbn [scan_g] in Ha.
    assert (P' : paired span M (@ewma_step R Arith_R (old_wt_factor span) s z) (@ewma_step R DA (@wt_factor R DA span) s' z)). { apply paired_step; auto. intros v ->. apply Hl. now left. }
    destruct i as [|i]; [|apply (IH ltac:(intros v Hv; apply Hl; now right) _ _ P' i a Ha)]. 
    destruct (@ewma_step R Arith_R (old_wt_factor span) s z) as [[m wt]|], (@ewma_step R DA (@wt_factor R DA span) s' z) as [[m' wt']|]; try contradiction; [|discriminate]. injection Ha as <-.
    destruct P' as (_ & _ & _ & Hm & He). pose proof (e_small span M Hs H2 HM). apply abs_le in Hm, He. apply Rabs_le. lra. }
  apply (G l Hl None None I).
Qed.
Lemma difference_bound fast slow M name X c i x : 1 <= fast -> 1 <= slow -> (fast + 1) ^ 2 <= 2 ^ 48 -> (slow + 1) ^ 2 <= 2 ^ 48 -> powerRZ 2 (-1000) <= M ->
  lookup name X = Some c -> held_below M c ->
  exists out out', ewma_difference_running DA fast slow false name X = Ok out /\ ewma_difference fast slow false name X = Ok out' /\
    (nth_error out i = Some x -> exists y, nth_error out' i = Some y /\ close_to (M * ((fast + 1) ^ 2 + (slow + 1) ^ 2) / 2 ^ 47) x y).
Proof.
  intros Hf Hs Hf2 Hs2 HM Hc Hl. unfold ewma_difference_running, ewma_difference, column. rewrite Hc. cbn [bind]. eexists _, _. split; [reflexivity|]. split; [reflexivity|].
  intros Hx. rewrite zipw_nth in Hx.
  destruct (nth_error (@ewma_double R DA fast c) i) as [a|] eqn:Ea; [|discriminate]. destruct (nth_error (@ewma_double R DA slow c) i) as [b|] eqn:Eb; [|discriminate].
  assert (Hi : (i < length c)%nat). { rewrite <- (scan_len (@ewma_step R DA (@wt_factor R DA fast)) (@ewma_out R) c None). apply nth_error_Some. unfold ewma_double in Ea. congruence. }
  rewrite zipw_nth. destruct (nth_error (ewm_mean fast c) i) as [a'|] eqn:Ea'; [|apply nth_error_None in Ea'; rewrite ewm_mean_len in Ea'; lia].
  destruct (nth_error (ewm_mean slow c) i) as [b'|] eqn:Eb'; [|apply nth_error_None in Eb'; rewrite ewm_mean_len in Eb'; lia].
  pose proof (average_bound fast M Hf Hf2 HM c i a a' Hl Ea Ea') as Ca. pose proof (average_bound slow M Hs Hs2 HM c i b b' Hl Eb Eb') as Cb.
  exists (esub a' b'). split; [reflexivity|]. apply (f_equal (fun o => match o with Some z => z | None => NaN end)) in Hx. cbv beta iota zeta in Hx. subst x.
  destruct a as [a| | |], a' as [a'| | |]; try easy; destruct b as [b| | |], b' as [b'| | |]; try easy. cbn [close_to] in Ca, Cb.
  unfold esub. cbn [eopp eadd aopp aadd Arith_double Arith_R close_to].
  pose proof (mean_below fast M c i a Hf Hf2 HM Hl Ea) as Ba. pose proof (mean_below slow M c i b Hs Hs2 HM Hl Eb) as Bb.
  assert (Z : Rabs (a + - b) <= 4 * M) by (apply abs_le in Ba, Bb; apply Rabs_le; lra). pose proof (rnd _ _ Z) as E. pose proof (tiny_M M 1 0 HM Nat.lt_0_1) as t1. pose proof (M_pos M HM) as P.
  assert (Q1 : 4 <= (fast + 1) ^ 2) by (cbn; nra). assert (Q2 : 4 <= (slow + 1) ^ 2) by (cbn; nra). set (p := (fast + 1) ^ 2) in *. set (q := (slow + 1) ^ 2) in *.
  rewrite (pow_IZR 2 48) in Ca, Cb. change (IZR (2 ^ Z.of_nat 48)) with 281474976710656 in Ca, Cb. rewrite (pow_IZR 2 47). change (IZR (2 ^ Z.of_nat 47)) with 140737488355328.
  assert (4 * M <= M * p) by nra. assert (4 * M <= M * q) by nra. rewrite Rmult_plus_distr_l. set (mp := M * p) in *. set (mq := M * q) in *. apply abs_le in Ca, Cb. apply Rabs_le. unfold eps64 in *. lra.
Qed.
