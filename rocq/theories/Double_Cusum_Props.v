(** C109: the event filter on decimal prices held in double precision. *)
From Coq Require Import Reals ZArith QArith Qreals Lia Lra List.
From Verif Require Import PreludeFacts Num Series Cusum_Spec Cusum_Model Cusum_Proofs Double_Model Double_Spec Double_Proofs Double_Proofs2
  Rounding_Model Rounding_Proofs Rounding_Arith_Model Rounding_Arith_Proofs Double_Cusum_Proofs.
Import ListNotations.
Local Open Scope R_scope.

(** The intended prices and the doubles that hold them. *)
Definition held (x : Z * Q) (y : Z * R) : Prop := fst y = fst x /\ nearest (Q2R (snd x)) (snd y).
Definition exact_series (X : list (Z * Q)) : series Q := map (fun x => (fst x, Fin (snd x))) X.
Definition double_series (Y : list (Z * R)) : series R := map (fun y => (fst y, Fin (snd y))) Y.

(** The price moves over the whole series stay away from the threshold by more than the accumulated rounding error: the filter selects the
    events of the exact prices, hence (C22) exactly the crossings. *)
Theorem C109_clear_moves : forall M H h (X : list (Z * Q)) (Y : list (Z * R)),
  powerRZ 2 (-1000) <= M -> (0 <= H)%Q -> NoDup (map fst X) ->
  nearest (Q2R H) h -> Forall2 held X Y ->
  (forall t r, In (t, r) X -> Rabs (Q2R r) <= M) ->
  (forall i k x y, (i <= k)%nat -> nth_error X i = Some x -> nth_error X k = Some y ->
     INR (length X) * (M + Q2R H) / 2 ^ 50 < Rabs (Rabs (Q2R (snd y) - Q2R (snd x)) - Q2R H)) ->
  @cusum_transform R Arith_double h (double_series Y) = cusum_transform H (exact_series X).
Proof. exact c109_same. Qed.
Print Assumptions C109_clear_moves.

(** Prices in decimal ticks and a threshold half way between two ticks: always the events of the exact prices. *)
Theorem C109_half_tick : forall (tick : Q) (m B : Z) h (X : list (Z * Z)) (Y : list (Z * R)),
  powerRZ 2 (-1000) <= Q2R tick -> (0 <= m)%Z -> (1 <= B)%Z -> NoDup (map fst X) ->
  (forall t z, In (t, z) X -> (Z.abs z <= B)%Z) ->
  (Z.of_nat (length X) * (2 * B + 2 * m + 1) < 2 ^ 50)%Z ->
  let H := ((inject_Z m + (1 # 2)) * tick)%Q in
  let P := map (fun x => (fst x, inject_Z (snd x) * tick)%Q) X in
  nearest (Q2R H) h -> Forall2 held P Y ->
  @cusum_transform R Arith_double h (double_series Y) = cusum_transform H (exact_series P).
Proof.
  intros tick m B h X Y Ht Hm HB HN Hz HL H P Hh HF.
  assert (T0 : 0 < powerRZ 2 (-1000)) by (apply powerRZ_lt; lra).
  assert (EZ : forall z, Q2R (inject_Z z) = IZR z) by (intros z; unfold Q2R, inject_Z; cbn; field).
  assert (EH : Q2R H = (IZR m + / 2) * Q2R tick).
  { unfold H. rewrite Q2R_mult, Q2R_plus, EZ. f_equal. f_equal. unfold Q2R. cbn. lra. }
  assert (B1 : 1 <= IZR B) by (apply IZR_le in HB; exact HB). assert (M0 : 0 <= IZR m) by (apply IZR_le in Hm; exact Hm).
  apply (C109_clear_moves (IZR B * Q2R tick)); auto.
  - eapply Rle_trans; [exact Ht|]. nra.
  - apply Rle_Qle. rewrite RMicromega.Q2R_0, EH. apply Rmult_le_pos; lra.
  - unfold P. rewrite map_map. exact HN.
  - intros t r Hin. apply in_map_iff in Hin. destruct Hin as ([t' z] & [= <- <-] & Hin). cbn [snd]. rewrite Q2R_mult, EZ, Rabs_mult.
    rewrite (Rabs_pos_eq (Q2R tick)) by lra. apply Rmult_le_compat_r; [lra|]. rewrite <- abs_IZR. apply IZR_le. eauto.
  - intros i k x y Hik Ex Ey. unfold P in Ex, Ey. rewrite nth_error_map in Ex, Ey.
    destruct (nth_error X i) as [[ti zi]|]; [|discriminate]. destruct (nth_error X k) as [[tk zk]|]; [|discriminate].
    injection Ex as <-. injection Ey as <-. cbn [snd]. rewrite !Q2R_mult, !EZ, EH.
    assert (EP : length P = length X) by apply map_length. rewrite EP.
    replace (IZR zk * Q2R tick - IZR zi * Q2R tick) with (IZR (zk - zi) * Q2R tick) by (rewrite minus_IZR; ring).
    rewrite Rabs_mult, (Rabs_pos_eq (Q2R tick)), <- abs_IZR by lra.
    replace (IZR (Z.abs (zk - zi)) * Q2R tick - (IZR m + / 2) * Q2R tick) with (/ 2 * IZR (2 * (Z.abs (zk - zi) - m) - 1) * Q2R tick)
      by (rewrite minus_IZR, mult_IZR, minus_IZR; field).
    rewrite !Rabs_mult, (Rabs_pos_eq (Q2R tick)), (Rabs_pos_eq (/ 2)), <- abs_IZR by lra.
    assert (1 <= IZR (Z.abs (2 * (Z.abs (zk - zi) - m) - 1))) as L1 by (apply (IZR_le 1); lia).
    apply Rlt_le_trans with (/ 2 * 1 * Q2R tick); [|apply Rmult_le_compat_r; lra].
    apply IZR_lt in HL. rewrite mult_IZR, <- INR_IZR_INZ, !plus_IZR, !mult_IZR in HL.
    rewrite (pow_IZR 2 50). change (2 ^ Z.of_nat 50)%Z with 1125899906842624%Z. change (2 ^ 50)%Z with 1125899906842624%Z in HL.
    apply Rmult_lt_reg_r with 1125899906842624; [lra|]. field_simplify.
    replace (INR (length X) * IZR B * Q2R tick + INR (length X) * Q2R tick * IZR m + / 2 * (INR (length X) * Q2R tick))
      with (/ 2 * (INR (length X) * (2 * IZR B + 2 * IZR m + 1)) * Q2R tick) by field.
    apply Rmult_lt_compat_r with (r := Q2R tick) in HL; [|lra]. lra.
Qed.
Print Assumptions C109_half_tick.

(** The filter with rounded rational numbers is the filter in doubles: it can be run. *)
Theorem C109_executable : forall h (X : list (Z * Q)),
  @cusum_transform R Arith_double (Q2R h) (double_series (map (fun x => (fst x, Q2R (snd x))) X)) =
  @cusum_transform Q Arith_rounded h (exact_series X).
Proof.
  intros h X. rewrite <- real_transform. f_equal. unfold double_series, exact_series, real_series. rewrite !map_map. reflexivity.
Qed.
Print Assumptions C109_executable.

(** In general the events differ. The prices rise by exactly the threshold 0.1 each time, so that a rise of more than the threshold takes two
    steps; in doubles 1.1 - 1.0 is more than 0.1. *)
Definition rising : list (Z * Q) := [(1, 1%Q); (2, 11 # 10); (3, 12 # 10); (4, 13 # 10); (5, 14 # 10)]%Z.
Theorem C109_decimal_refuted : ~ forall H h (X : list (Z * Q)) (Y : list (Z * R)),
  (0 <= H)%Q -> NoDup (map fst X) -> nearest (Q2R H) h -> Forall2 held X Y ->
  @cusum_transform R Arith_double h (double_series Y) = cusum_transform H (exact_series X).
Proof.
  intros F. specialize (F (1 # 10) (Q2R (rounded (1 # 10))) rising (map (fun x => (fst x, Q2R (snd x))) (map (fun x => (fst x, rounded (snd x))) rising))).
  rewrite C109_executable in F. 
  assert (@cusum_transform Q Arith_rounded (rounded (1 # 10)) (exact_series (map (fun x => (fst x, rounded (snd x))) rising)) = Ok [2; 4]%Z) as E1
    by (vm_compute; reflexivity).
  assert (cusum_transform (1 # 10) (exact_series rising) = Ok [3; 5]%Z) as E2 by (vm_compute; reflexivity).
  rewrite E1, E2 in F.
  assert (HN : forall q, nearest (Q2R q) (Q2R (rounded q))) by (intros q; rewrite rounded_double; apply to_double_nearest).
  discriminate F; [unfold Qle; cbn; lia| |apply HN|].
  - cbn. repeat constructor; cbn; lia.
  - rewrite map_map. cbn [fst snd]. clear F E1 E2. induction rising as [|x l IH]; constructor; auto. split; [reflexivity|apply HN].
Qed.
Print Assumptions C109_decimal_refuted.

(** A case that meets the hypotheses: prices in cents, a threshold of 25.5 cents. *)
Definition cents : list (Z * Z) := [(1, 10010); (2, 10030); (3, 10036); (4, 10010); (5, 9984); (6, 9990)]%Z.
Example C109_cents :
  let X := map (fun x => (fst x, inject_Z (snd x) * (1 # 100))%Q) cents in
  let Y := map (fun x => (fst x, Q2R (rounded (snd x)))) X in
  @cusum_transform R Arith_double (to_double (Q2R ((inject_Z 25 + (1 # 2)) * (1 # 100)))) (double_series Y) = Ok [3; 4; 5]%Z /\
  powerRZ 2 (-1000) <= Q2R (1 # 100) /\ Forall2 held X Y.
Proof.
  cbv zeta.
  assert (HN : forall q, nearest (Q2R q) (Q2R (rounded q))) by (intros q; rewrite rounded_double; apply to_double_nearest).
  assert (HF : Forall2 held (map (fun x => (fst x, inject_Z (snd x) * (1 # 100))%Q) cents)
    (map (fun x => (fst x, Q2R (rounded (snd x)))) (map (fun x => (fst x, inject_Z (snd x) * (1 # 100))%Q) cents))).
  { generalize (map (fun x => (fst x, inject_Z (snd x) * (1 # 100))%Q) cents). induction l as [|x l IH]; constructor; auto. split; [reflexivity|apply HN]. }
  assert (HT : powerRZ 2 (-1000) <= Q2R (1 # 100)).
  { rewrite <- bpow2. apply Rle_trans with (Flocq.Core.Raux.bpow Flocq.Core.Zaux.radix2 (-10)); [apply Flocq.Core.Raux.bpow_le; lia|].
    change (Flocq.Core.Raux.bpow Flocq.Core.Zaux.radix2 (-10)) with (/ 1024). unfold Q2R. cbn. lra. }
  split; [|split; auto].
  etransitivity.
  - apply (C109_half_tick (1 # 100) 25 10036 _ cents); try lia.
    + exact HT.
    + cbn. repeat constructor; cbn; lia.
    + intros t z Hin. repeat destruct Hin as [Hin|Hin]; try (injection Hin as _ <-; lia). destruct Hin.
    + reflexivity.
    + apply to_double_nearest.
    + exact HF.
  - vm_compute. reflexivity.
Qed.
