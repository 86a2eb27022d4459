(** Kyle's lambda in doubles: how far it is from the mean of the impacts, and what is left of earlier moves when the price stops moving. *)
From Coq Require Import Reals ZArith Lra Lia List String.
From Flocq Require Import Core.
From Verif Require Import Prelude PreludeFacts Num Series DailyVol_Model Feat_Model Feat_Spec Feat_Proofs Feat_Proofs3 Roll_Model Roll_Proofs Roll_Proofs2
  Double_Model Double_Spec Double_Proofs Double_Proofs2 Double_Boot_Proofs2 Double_Bet_Proofs2 Double_Vpin_Model Double_Cross_Model Double_Micro_Model Double_Bound_Spec Double_Bound_Proofs Double_Bound_Proofs2.
Import ListNotations.
Local Open Scope R_scope.
Local Notation length := List.length.

Lemma quiet_mean M w l i : powerRZ 2 (-1000) <= M -> (0 < w)%nat -> (Z.of_nat (length l) * (Z.of_nat w + 2) <= 2 ^ 49)%Z -> held_below M l ->
  (w <= S i)%nat -> (i < length l)%nat -> (forall j, (S i - w <= j <= i)%nat -> nth_error l j = Some (Fin 0)) ->
  exists k, nth_error (@kahan_mean R DA w l) i = Some (Fin k) /\ Rabs k <= INR (i + 1) * M / 2 ^ 47.
Proof.
  intros HM Hw HN Hl Hwi Hi Hq. assert (E : slice (S i - w) (S i) l = map (fun _ => Fin 0) (seq 0 w)).
  { apply list_ext. intros j. unfold slice. destruct (Nat.lt_ge_cases j w) as [L|L].
    - rewrite nth_error_firstn_lt by lia. rewrite nth_error_map, nth_error_seq_lt by exact L. cbn [option_map].
      rewrite <- (Hq (S i - w + j)%nat) by lia. clear - L Hwi Hi. rewrite <- (firstn_skipn (S i - w) l) at 2. rewrite nth_error_app2 by (rewrite firstn_length; lia). f_equal. rewrite firstn_length. lia.
    - transitivity (@None (ext R)); [|symmetry]; apply nth_error_None; [rewrite firstn_length; lia|rewrite map_length, seq_length; lia]. }
  assert (F : forall a, finite_vals (map (fun _ : nat => @Fin R 0) a) = map (fun _ => 0) a) by (induction a as [|? ? IH]; [reflexivity|cbn; now f_equal]).
  assert (Z0 : forall a : list nat, lsum (map (fun _ => 0) a) = 0) by (induction a as [|? ? IH]; [reflexivity|cbn [map]; rewrite lsum_cons, IH; lra]).
  assert (Y : nth_error (rolling w agg_mean l) i = Some (Fin 0)).
  { unfold rolling. rewrite nth_error_map, nth_error_seq_lt by exact Hi. cbn [option_map Nat.add]. f_equal. cbv zeta. rewrite E, F, map_length, seq_length, Nat.leb_refl.
    destruct w as [|w']; [lia|]. unfold agg_mean, mean. cbn [seq map]. change (0 :: map (fun _ : nat => 0) (seq 1 w')) with (map (fun _ : nat => 0) (seq 0 (S w'))). rewrite Z0. f_equal. unfold Rdiv. lra. }
  destruct (nth_error (@kahan_mean R DA w l) i) as [x|] eqn:Ex; [|apply nth_error_None in Ex; rewrite kahan_mean_len in Ex; lia].
  pose proof (mean_row M w (length l) HM Hw HN l i x _ Hl (le_n _) Ex Y) as C. destruct x as [k| | |]; try easy. exists k. split; [reflexivity|]. cbn [close_to] in C. now rewrite Rminus_0_r in C.
Qed.

Section Kyle.
  Variables (P v0 : R) (bars : list (R * R)).
  Hypothesis Hv0 : 0 < v0.
  Hypothesis HP : powerRZ 2 (-1000) <= P / v0.
  Hypothesis Hbars : forall p v, In (p, v) bars -> is_double p /\ 0 <= p <= P /\ v0 <= v.
  Local Notation C := (map (fun t => Fin (fst t)) bars).
  Local Notation V := (map (fun t => Fin (snd t)) bars).
  Definition impacts : list (ext R) := zipw (@ediv R DA) (map (@eabs R DA) (@diff R DA C)) V.
  Lemma impacts_len : length impacts = length bars.
  Proof. unfold impacts, diff. rewrite !zipw_length, map_length, zipw_length, shift1_length, !map_length. lia. Qed.
  Lemma impact_at j : (j < length bars)%nat -> nth_error impacts j = match j with
    | 0%nat => Some NaN
    | S k => match nth_error bars j, nth_error bars k with Some b, Some a => Some (Fin (to_double (Rabs (to_double (fst b - fst a)) / snd b))) | _, _ => None end
    end.
  Proof.
    intros Hj. unfold impacts, diff. rewrite zipw_nth, nth_error_map, zipw_nth, shift1_nth by (rewrite map_length; exact Hj). rewrite !nth_error_map.
    destruct (nth_error bars j) as [[p v]|] eqn:E; [|apply nth_error_None in E; lia]. cbn [option_map fst snd]. destruct j as [|k]; [reflexivity|]. rewrite nth_error_map.
    destruct (nth_error bars k) as [[q u]|] eqn:E'; cbn [option_map fst snd]; [|reflexivity]. f_equal.
    apply nth_error_In in E. destruct (Hbars p v E) as (_ & _ & Hv). unfold esub. cbn [eopp eadd eabs ediv aopp aadd Arith_double].
    change (p + - q) with (p - q). set (x := to_double (p - q)). change (@aeqb R DA v (@a0 R DA)) with (if Req_EM_T v 0 then true else false). destruct (Req_EM_T v 0); [lra|].
    change (@altb R DA x (@a0 R DA)) with (if Rlt_dec x 0 then true else false). unfold adiv. f_equal.
    replace (Rabs x) with (if Rlt_dec x 0 then - x else x) by (destruct (Rlt_dec x 0); [rewrite Rabs_left by lra|rewrite Rabs_pos_eq by lra]; reflexivity). destruct (Rlt_dec x 0); reflexivity.
  Qed.
  Lemma impacts_held : held_below (2 * (P / v0)) impacts.
  Proof.
    intros x Hx. apply In_nth_error in Hx as (j & Hj). assert (L : (j < length bars)%nat) by (rewrite <- impacts_len; apply nth_error_Some; congruence). rewrite impact_at in Hj by exact L.
    destruct j as [|k]; [discriminate|]. destruct (nth_error bars (S k)) as [[p v]|] eqn:E; [|discriminate]. destruct (nth_error bars k) as [[q u]|] eqn:E'; [|discriminate]. injection Hj as <-. cbn [fst snd].
    apply nth_error_In in E, E'. destruct (Hbars p v E) as (Dp & Hp & Hv). destruct (Hbars q u E') as (Dq & Hq & _). split; [apply to_double_is|].
    assert (A : to_double (p - q) <= p) by (apply to_double_le_double; [exact Dp|lra]). assert (B : - q <= to_double (p - q)) by (apply to_double_ge_double; [now apply is_double_opp|lra]).
    assert (R : Rabs (to_double (p - q)) <= P) by (apply Rabs_le; lra). pose proof (Rabs_pos (to_double (p - q))) as R0. set (a := Rabs (to_double (p - q))) in *.
    assert (Q : 0 <= a / v <= P / v0). { split; [apply Rmult_le_pos; [exact R0|left; apply Rinv_0_lt_compat; lra]|]. unfold Rdiv. apply Rmult_le_compat; [exact R0|left; apply Rinv_0_lt_compat; lra|exact R|apply Rinv_le_contravar; lra]. }
    pose proof (error_any (a / v)) as T. pose proof (tiny_M (P / v0) 1 0 HP Nat.lt_0_1) as T'. rewrite (Rabs_pos_eq (a / v)) in T by lra. unfold eps64 in *. apply abs_le in T. apply Rabs_le. lra.
  Qed.
  Lemma still i w : (0 < w)%nat -> (w <= i)%nat -> (i < length bars)%nat -> (forall j, (i - w <= j <= i)%nat -> forall t t', nth_error bars j = Some t -> nth_error bars i = Some t' -> fst t = fst t') ->
    forall j, (S i - w <= j <= i)%nat -> nth_error impacts j = Some (Fin 0).
  Proof.
    intros Hw Hwi Hi Hq j Hj. rewrite impact_at by lia. destruct j as [|k]; [lia|]. destruct (nth_error bars (S k)) as [t|] eqn:E; [|apply nth_error_None in E; lia]. destruct (nth_error bars k) as [t'|] eqn:E'; [|apply nth_error_None in E'; lia].
    destruct (nth_error bars i) as [s|] eqn:Ei; [|apply nth_error_None in Ei; lia].
    rewrite (Hq (S k) ltac:(lia) t s E eq_refl), (Hq k ltac:(lia) t' s E' eq_refl). rewrite Rminus_diag_eq, (to_double_id 0), Rabs_R0 by (reflexivity || apply is_double_0). unfold Rdiv. rewrite Rmult_0_l, (to_double_id 0) by apply is_double_0. reflexivity.
  Qed.
End Kyle.

Lemma c120_kyle P v0 w cn vn X (bars : list (R * R)) i : 0 < v0 -> powerRZ 2 (-1000) <= P / v0 -> (0 < w)%nat -> (Z.of_nat (length bars) * (Z.of_nat w + 2) <= 2 ^ 49)%Z ->
  lookup cn X = Some (map (fun t => Fin (fst t)) bars) -> lookup vn X = Some (map (fun t => Fin (snd t)) bars) ->
  (forall p v, In (p, v) bars -> is_double p /\ 0 <= p <= P /\ v0 <= v) ->
  (w <= i < length bars)%nat -> (forall j t t', (i - w <= j <= i)%nat -> nth_error bars j = Some t -> nth_error bars i = Some t' -> fst t = fst t') ->
  exists out k, kyle_running DA w cn vn X = Ok out /\ nth_error out i = Some (Fin k) /\ Rabs k <= INR (i + 1) * (P / v0) / 2 ^ 46.
Proof.
  intros Hv0 HP Hw HN Hc Hv Hbars Hi Hq. unfold kyle_running.
  assert (K : check_missing_columns X [cn; vn] = Ok tt) by (unfold check_missing_columns; cbn; rewrite Hc, Hv; reflexivity).
  rewrite K. cbn [bind]. unfold column. rewrite Hc, Hv. cbn [bind]. change (zipw ediv _ _) with (impacts bars).
  assert (P0 : 0 < P / v0) by (eapply Rlt_le_trans; [|exact HP]; apply powerRZ_lt; lra).
  destruct (quiet_mean (2 * (P / v0)) w (impacts bars) i) as (k & Ek & Hk); rewrite ?impacts_len; try lia; try lra; auto.
  - apply impacts_held; auto.
  - apply (still P v0 bars Hv0 Hbars i w); try lia. intros j Hj t t1 E E1. now apply (Hq j).
  - eexists _, k. split; [reflexivity|]. split; [exact Ek|]. eapply Rle_trans; [exact Hk|]. right. field. lra.
Qed.
