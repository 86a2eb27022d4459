(** C120: how far the rolling sums and averages held in doubles are from the exact ones, and the consequences for the moving-average crossover, VPIN
    and Kyle's lambda. *)
From Coq Require Import Reals ZArith QArith Lra Lia List String.
From Verif Require Import Prelude Num Series Feat_Model Double_Model Double_Spec Double_Proofs Double_Proofs2 Double_Bet_Proofs2 Double_Vpin_Model Double_Cross_Model Double_Micro_Model
  Double_Bound_Spec Double_Bound_Proofs Double_Bound_Proofs2 Double_Bound_Proofs3 Double_Bound_Proofs4.
Import ListNotations.
Local Open Scope R_scope.
Local Notation length := List.length.

(** The error of a running sum grows at most linearly with the row, whatever the numbers: values of size at most M, missing ones included. *)
Theorem C120_sums : forall M w l, powerRZ 2 (-1000) <= M -> (0 < w)%nat -> (Z.of_nat (length l) * (Z.of_nat w + 2) <= 2 ^ 49)%Z -> held_below M l ->
  forall i x y, nth_error (@kahan_sum R Arith_double w l) i = Some x -> nth_error (rolling w agg_sum l) i = Some y ->
  close_to (INR (i + 1) * INR (w + 2) * M / 2 ^ 49) x y.
Proof. intros M w l HM Hw HN Hl i x y. now apply (sum_row M w (length l) HM Hw HN). Qed.
Print Assumptions C120_sums.

(** So does that of a running average, and the window does not enter. *)
Theorem C120_means : forall M w l, powerRZ 2 (-1000) <= M -> (0 < w)%nat -> (Z.of_nat (length l) * (Z.of_nat w + 2) <= 2 ^ 49)%Z -> held_below M l ->
  forall i x y, nth_error (@kahan_mean R Arith_double w l) i = Some x -> nth_error (rolling w agg_mean l) i = Some y ->
  close_to (INR (i + 1) * M / 2 ^ 47) x y.
Proof. intros M w l HM Hw HN Hl i x y. now apply (mean_row M w (length l) HM Hw HN). Qed.
Print Assumptions C120_means.

(** The crossover in doubles is the exact one as long as the two exact averages are never too close. *)
Theorem C120_crossover : forall M fast slow fill name X c, powerRZ 2 (-1000) <= M -> (0 < fast)%nat -> (0 < slow)%nat ->
  (Z.of_nat (length c) * (Z.of_nat fast + 2) <= 2 ^ 49)%Z -> (Z.of_nat (length c) * (Z.of_nat slow + 2) <= 2 ^ 49)%Z ->
  lookup name X = Some c -> held_below M c ->
  (forall i a b, nth_error (rolling fast agg_mean c) i = Some (Fin a) -> nth_error (rolling slow agg_mean c) i = Some (Fin b) -> INR (length c) * M / 2 ^ 46 < Rabs (a - b)) ->
  crossover_running Arith_double fast slow fill name X = ma_crossover fast slow fill name X.
Proof. exact c120_crossover. Qed.
Print Assumptions C120_crossover.

(** For prices in decimal ticks it is enough that the averages of the decimal prices are never equal: X holds the decimal prices, Y the nearest
    doubles, and the history is not too long for the tick. C116_decimals_refuted shows what happens when they are equal. *)
Theorem C120_decimal_crossover : forall tick M fast slow fill name X Y (prices : list (option Z)),
  0 < tick -> powerRZ 2 (-1000) <= M -> (0 < fast)%nat -> (0 < slow)%nat ->
  (forall z, In (Some z) prices -> Rabs (IZR z * tick) <= M / 2) ->
  (Z.of_nat (length prices) * (Z.of_nat fast + 2) <= 2 ^ 49)%Z -> (Z.of_nat (length prices) * (Z.of_nat slow + 2) <= 2 ^ 49)%Z ->
  INR (length prices) * M / 2 ^ 45 * INR fast * INR slow <= tick ->
  f_index X = f_index Y -> lookup name X = Some (map (decimal tick) prices) -> lookup name Y = Some (map (stored tick) prices) ->
  (forall i a b, nth_error (rolling fast agg_mean (map (decimal tick) prices)) i = Some (Fin a) ->
                 nth_error (rolling slow agg_mean (map (decimal tick) prices)) i = Some (Fin b) -> a <> b) ->
  crossover_running Arith_double fast slow fill name Y = ma_crossover fast slow fill name X.
Proof. exact c120_decimals. Qed.
Print Assumptions C120_decimal_crossover.

(** VPIN in doubles is close to the exact VPIN wherever the window holds enough volume compared with the largest volume seen. *)
Theorem C120_vpin : forall M w volume buy sell X (bars : list (R * R * R)),
  powerRZ 2 (-1000) <= M -> (0 < w)%nat -> (Z.of_nat (length bars) * (Z.of_nat w + 2) <= 2 ^ 49)%Z ->
  lookup volume X = Some (map (fun t => Fin (bar_volume t)) bars) ->
  lookup buy X = Some (map (fun t => Fin (bar_bought t)) bars) -> lookup sell X = Some (map (fun t => Fin (bar_sold t)) bars) ->
  (forall v b s, In (v, b, s) bars -> is_double v /\ is_double b /\ is_double s /\ 0 <= v <= M /\ 0 <= b <= M /\ 0 <= s <= M /\ Rabs (b - s) <= 2 * v) ->
  exists out out', vpin w volume buy sell X = Ok out /\ vpin_running Arith_double w volume buy sell X = Ok out' /\
    forall i, (w <= S i)%nat -> (i < length bars)%nat -> INR (i + 1) * INR (w + 2) * M / 2 ^ 48 <= last_total w bars bar_volume i ->
      exists x y, nth_error out i = Some (Fin x) /\ nth_error out' i = Some (Fin y) /\ x = last_total w bars bar_imbalance i / last_total w bars bar_volume i /\
        Rabs (y - x) <= INR (i + 1) * INR (w + 2) * M / 2 ^ 46 / last_total w bars bar_volume i.
Proof. exact c120_vpin. Qed.
Print Assumptions C120_vpin.

(** What earlier moves leave behind in Kyle's lambda once the price stands still: for prices up to P and volumes of at least v0, less than
    (i + 1) P / v0 / 2^46. *)
Theorem C120_kyle_residue : forall P v0 w close volume X (bars : list (R * R)) i,
  0 < v0 -> powerRZ 2 (-1000) <= P / v0 -> (0 < w)%nat -> (Z.of_nat (length bars) * (Z.of_nat w + 2) <= 2 ^ 49)%Z ->
  lookup close X = Some (map (fun t => Fin (fst t)) bars) -> lookup volume X = Some (map (fun t => Fin (snd t)) bars) ->
  (forall p v, In (p, v) bars -> is_double p /\ 0 <= p <= P /\ v0 <= v) ->
  (w <= i < length bars)%nat ->
  (forall j t t', (i - w <= j <= i)%nat -> nth_error bars j = Some t -> nth_error bars i = Some t' -> fst t = fst t') ->
  exists out k, kyle_running Arith_double w close volume X = Ok out /\ nth_error out i = Some (Fin k) /\ Rabs k <= INR (i + 1) * (P / v0) / 2 ^ 46.
Proof. exact c120_kyle. Qed.
Print Assumptions C120_kyle_residue.

(** ** Cases that meet the hypotheses *)

Lemma small_M M : 1 <= M -> powerRZ 2 (-1000) <= M.
Proof. intros H. apply Rle_trans with 1; [|exact H]. rewrite <- bpow2. apply (Raux.bpow_le Zaux.radix2 (-1000) 0). lia. Qed.

(** Prices 100.10, 100.30, 100.20, missing, 100.70, 100.50 with windows 1 and 2. *)
Definition cents : list (option Z) := [Some 10010%Z; Some 10030%Z; Some 10020%Z; None; Some 10070%Z; Some 10050%Z].
Definition cents_frame (f : option Z -> ext R) : frame := {| f_index := [1; 2; 3; 4; 5; 6]%Z; f_cols := [("close"%string, map f cents)] |}.
Example C120_decimal_case : crossover_running Arith_double 1 2 false "close" (cents_frame (stored (1 / 100))) = ma_crossover 1 2 false "close" (cents_frame (decimal (1 / 100))).
Proof.
  apply (C120_decimal_crossover (1 / 100) 512 1 2 false "close" _ _ cents); try reflexivity; try lia; try (cbn; lia); try lra.
  - apply small_M. lra.
  - intros z Hz. cbn in Hz. repeat (destruct Hz as [Hz|Hz]; [first [injection Hz as <-|discriminate]; apply Rabs_le; lra|]). destruct Hz.
  - cbn [length cents INR]. rewrite (pow_IZR 2 45). change (IZR (2 ^ Z.of_nat 45)) with 35184372088832. lra.
  - intros i a b Ha Hb. do 6 (destruct i as [|i]; [cbn in Ha, Hb; try discriminate Ha; try discriminate Hb; injection Ha as <-; injection Hb as <-; unfold Feat_Model.mean, DailyVol_Model.lsum; cbn; lra|]).
    exfalso. cbn in Ha. destruct i; discriminate.
Qed.

(** Volumes 0.3 with 0.2 bought and 0.1 sold. *)
Definition tenths : list (R * R * R) := [(to_double (3 / 10), to_double (2 / 10), to_double (1 / 10)); (to_double (3 / 10), to_double (2 / 10), to_double (1 / 10))].
Definition tenths_frame : frame :=
  {| f_index := [1; 2]%Z; f_cols := [("volume", map (fun t => Fin (bar_volume t)) tenths); ("buy", map (fun t => Fin (bar_bought t)) tenths); ("sell", map (fun t => Fin (bar_sold t)) tenths)]%string |}.
Example C120_vpin_case : exists out out', vpin 2 "volume" "buy" "sell" tenths_frame = Ok out /\ vpin_running Arith_double 2 "volume" "buy" "sell" tenths_frame = Ok out' /\
  exists x y, nth_error out 1 = Some (Fin x) /\ nth_error out' 1 = Some (Fin y) /\ Rabs (y - x) <= / 2 ^ 42.
Proof.
  assert (E : forall z, (0 <= z <= 10)%Z -> IZR z / 10 - / 1000 <= to_double (IZR z / 10) <= IZR z / 10 + / 1000).
  { intros z Hz. pose proof (error_any (IZR z / 10)) as T. pose proof (tiny_M 1 1 0 (small_M 1 (Rle_refl 1)) Nat.lt_0_1) as T'. assert (0 <= IZR z <= 10) by (split; apply IZR_le; lia).
    rewrite (Rabs_pos_eq (IZR z / 10)) in T by lra. unfold eps64 in *. apply abs_le in T. lra. }
  pose proof (E 3%Z ltac:(lia)) as E3. pose proof (E 2%Z ltac:(lia)) as E2. pose proof (E 1%Z ltac:(lia)) as E1. clear E.
  destruct (C120_vpin 1 2 "volume" "buy" "sell" tenths_frame tenths) as (out & out' & A & B & H); try reflexivity; try lia; try (cbn; lia).
  - apply small_M. lra.
  - intros v b s Hin. assert ((v, b, s) = (to_double (3 / 10), to_double (2 / 10), to_double (1 / 10))) as K by (destruct Hin as [K|[K|[]]]; congruence). injection K as -> -> ->.
    repeat split; try apply to_double_is; try lra. apply Rabs_le. lra.
  - exists out, out'. split; [exact A|]. split; [exact B|].
    assert (T : last_total 2 tenths bar_volume 1 = to_double (3 / 10) + (to_double (3 / 10) + 0)) by reflexivity.
    destruct (H 1%nat) as (x & y & Hx & Hy & _ & Hd); try (cbn; lia).
    + rewrite T. rewrite (pow_IZR 2 48). change (IZR (2 ^ Z.of_nat 48)) with 281474976710656. cbn [INR Nat.add]. lra.
    + exists x, y. split; [exact Hx|]. split; [exact Hy|]. eapply Rle_trans; [exact Hd|]. rewrite T. set (t := to_double (3 / 10) + _). assert (Ht : / 2 <= t) by (unfold t; lra).
      replace (INR (1 + 1) * INR (2 + 2) * 1 / 2 ^ 46 / t) with (/ 2 ^ 43 * / t) by (cbn [INR Nat.add]; field; lra).
      apply Rle_trans with (/ 2 ^ 43 * 2); [apply Rmult_le_compat_l; [left; apply Rinv_0_lt_compat, pow_lt; lra|]|right; field].
      replace 2 with (/ / 2) by field. apply Rinv_le_contravar; lra.
Qed.

(** The price moves from 100 to 101 and stays there. *)
Definition settled : list (R * R) := [(100, 7); (101, 3); (101, 5); (101, 2)].
Definition settled_frame : frame := {| f_index := [1; 2; 3; 4]%Z; f_cols := [("close", map (fun t => Fin (fst t)) settled); ("volume", map (fun t => Fin (snd t)) settled)]%string |}.
Example C120_kyle_case : exists out k, kyle_running Arith_double 2 "close" "volume" settled_frame = Ok out /\ nth_error out 3 = Some (Fin k) /\ Rabs k <= INR 4 * (128 / 2) / 2 ^ 46.
Proof.
  apply (C120_kyle_residue 128 2 2 "close" "volume" settled_frame settled 3); try reflexivity; try lra; try lia; try (cbn; lia).
  - apply small_M. lra.
  - intros p v H. assert (is_double 100 /\ is_double 101) as (D1 & D2) by (split; apply is_double_IZR; lia).
    destruct H as [H|[H|[H|[H|[]]]]]; injection H as <- <-; repeat split; try assumption; lra.
  - intros j t t' Hj Ht Ht'. injection Ht' as <-. assert (j = 1 \/ j = 2 \/ j = 3)%nat as [-> |[-> | ->]] by lia; injection Ht as <-; reflexivity.
Qed.
