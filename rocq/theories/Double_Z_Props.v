(** C117: the rolling z-score in double precision. *)
From Coq Require Import Reals ZArith QArith Qreals Lra Lia List String.
From Verif Require Import Prelude PreludeFacts Num Series Feat_Model Feat_Spec Feat_Proofs4 Double_Model Double_Spec Double_Proofs
  Rounding_Model Rounding_Proofs Rounding_Arith_Model Rounding_Arith_Proofs Double_Vpin_Model Double_Vpin_Spec Double_Cross_Model Double_Cross_Proofs2
  Double_Z_Model Double_Z_Proofs Double_Z_Proofs2.
Import ListNotations.
Local Open Scope R_scope.
Local Notation length := List.length.

(** In exact arithmetic the running, compensated means and deviations give the z-score of C42. *)
Theorem C117_exact : forall w l, (0 < w)%nat -> @z_running R Arith_R sqrt w l = calc_z_score w l.
Proof. exact c117_exact. Qed.
Print Assumptions C117_exact.

(** A flat market, the value being any double: the deviation is exactly 0, so a row never holds a number. *)
Theorem C117_flat : forall w l p, is_double p -> (forall x, In x l -> x = NaN \/ x = Fin p) ->
  forall z, In z (@z_running R Arith_double double_root w l) -> z = NaN \/ z = PInf \/ z = NInf.
Proof.
  intros w l p Hp Hl. apply Forall_forall. apply (c117_flat w l p Hp); [now apply Forall_forall|]. intros x. apply mean_fin.
Qed.
Print Assumptions C117_flat.

(** The value being a number of ticks of 2^e, not too large for the window: every row is missing, as in exact arithmetic. *)
Theorem C117_flat_ticks : forall e z w (l : list (option Z)),
  (-1074 <= e)%Z -> (0 < w)%nat -> (Z.abs z * Z.of_nat w < 2 ^ 53)%Z -> (Z.of_nat w <= 2 ^ 53)%Z ->
  (forall x, In x l -> x = None \/ x = Some z) -> @z_running R Arith_double double_root w (map (in_double e) l) = map (fun _ => NaN) l.
Proof. exact c117_ticks. Qed.
Print Assumptions C117_flat_ticks.

(** The rolling variances with rounded rational numbers are those in doubles: they can be run. *)
Theorem C117_executable : forall w l, (Z.of_nat (length l) <= 2 ^ 53)%Z ->
  map real (@kahan_var Q Arith_rounded w l) = @kahan_var R Arith_double w (map real l).
Proof. exact real_kahan_var. Qed.
Print Assumptions C117_executable.

(** Decimal numbers, held as the nearest doubles. *)
Definition held (l : list Q) : list (ext R) := map (fun q => Fin (to_double (Q2R q))) l.
Definition run (l : list Q) : list (ext Q) := map (fun q => Fin (rounded q)) l.
Lemma held_run l : held l = map real (run l).
Proof. unfold held, run. rewrite map_map. apply map_ext. intros q. cbn [real]. now rewrite rounded_double. Qed.
(** The value 0.1 in every row: the z-score is minus infinity; in exact arithmetic there is none. *)
Theorem C117_flat_refuted :
  nth_error (@z_running R Arith_double double_root 3 (held [1 # 10; 1 # 10; 1 # 10; 1 # 10])) 3 = Some NInf /\
  nth_error (calc_z_score 3 (held [1 # 10; 1 # 10; 1 # 10; 1 # 10])) 3 = Some NaN.
Proof.
  split.
  - rewrite held_run. erewrite z_row; [|cbn; lia|vm_compute; reflexivity|vm_compute; reflexivity].
    match goal with |- context [ @ediv R DA (real (Fin ?a)) (zroot _ (real (Fin ?b))) ] => change (real (Fin b)) with (Fin (Q2R b)); change (real (Fin a)) with (Fin (Q2R a)); replace (Q2R b) with 0 by (symmetry; apply real_0) end.
    rewrite z_zero_var. reflexivity.
  - apply (flat_exact 3 _ 3 (map (fun _ => to_double (Q2R (1 # 10))) (seq 0 3))); [lia|cbn; lia|reflexivity|].
    exists (to_double (Q2R (1 # 10))). intros y Hy. apply in_map_iff in Hy as (j & <- & _). reflexivity.
Qed.
Print Assumptions C117_flat_refuted.

(** 0.6, 1.7, 1.7 with a window of 2: the last window is flat, but what 0.6 left behind makes the deviation positive, and the z-score 0. *)
Theorem C117_history_refuted :
  nth_error (@z_running R Arith_double double_root 2 (held [6 # 10; 17 # 10; 17 # 10])) 2 = Some (Fin 0) /\
  nth_error (calc_z_score 2 (held [6 # 10; 17 # 10; 17 # 10])) 2 = Some NaN.
Proof.
  split.
  - rewrite held_run. erewrite z_row; [|cbn; lia|vm_compute; reflexivity|vm_compute; reflexivity].
    match goal with |- context [ @ediv R DA (real (Fin ?a)) (zroot _ (real (Fin ?b))) ] => change (real (Fin b)) with (Fin (Q2R b)); change (real (Fin a)) with (Fin (Q2R a));
      replace (Q2R a) with 0 by (symmetry; apply real_0); assert (B : powerRZ 2 (-100) <= Q2R b) end.
    { replace (powerRZ 2 (-100)) with (Q2R (1 # 2 ^ 100)).
      - apply Qle_Rle. vm_compute. discriminate.
      - unfold Q2R. cbn [Qnum Qden]. rewrite Rmult_1_l. change (powerRZ 2 (-100)) with (/ (2 ^ 100)). f_equal. rewrite (pow_IZR 2 100). f_equal. }
    now rewrite (z_zero_dev _ B).
  - apply (flat_exact 2 _ 2 (map (fun _ => to_double (Q2R (17 # 10))) (seq 0 2))); [lia|cbn; lia|reflexivity|].
    exists (to_double (Q2R (17 # 10))). intros y Hy. apply in_map_iff in Hy as (j & <- & _). reflexivity.
Qed.
Print Assumptions C117_history_refuted.

(** One large value that has left the window: 2.5 and 2.6 after 11 million. The deviation is computed as 0 and the z-score is infinite; in exact
    arithmetic it is a number, at most 1 / sqrt 2. *)
Theorem C117_spike_refuted :
  nth_error (@z_running R Arith_double double_root 2 (held [42 # 10; 11000000 # 1; 25 # 10; 26 # 10])) 3 = Some PInf /\
  exists z, nth_error (calc_z_score 2 (held [42 # 10; 11000000 # 1; 25 # 10; 26 # 10])) 3 = Some (Fin z) /\ Rabs z <= 1 / sqrt 2.
Proof.
  split.
  - rewrite held_run. erewrite z_row; [|cbn; lia|vm_compute; reflexivity|vm_compute; reflexivity].
    match goal with |- context [ @ediv R DA (real (Fin ?a)) (zroot _ (real (Fin ?b))) ] => change (real (Fin b)) with (Fin (Q2R b)); change (real (Fin a)) with (Fin (Q2R a)); replace (Q2R b) with 0 by (symmetry; apply real_0) end.
    rewrite z_zero_var. reflexivity.
  - destruct (c42 2 (held [42 # 10; 11000000 # 1; 25 # 10; 26 # 10]) 3) as (z & E & M); [lia|cbn; lia|].
    replace (last_values 2 (held [42 # 10; 11000000 # 1; 25 # 10; 26 # 10]) 3) with (Some [to_double (Q2R (25 # 10)); to_double (Q2R (26 # 10))]) in M by reflexivity.
    destruct M as [[[x C] _]|(_ & s & -> & _ & B)].
    + exfalso. pose proof (C _ (or_introl eq_refl)) as C1. pose proof (C _ (or_intror (or_introl eq_refl))) as C2. rewrite <- C2 in C1. rewrite <- !rounded_double in C1.
      apply eqR_Qeq in C1. vm_compute in C1. discriminate.
    + exists s. split; [exact E|]. replace (1 / sqrt 2) with ((INR 2 - 1) / sqrt (INR 2)); [exact B|]. change (INR 2) with (1 + 1). replace (1 + 1) with 2 by lra. f_equal. lra.
Qed.
Print Assumptions C117_spike_refuted.

(** A case that meets the hypotheses: 25.25 in quarters, with a missing row. *)
Example C117_case : @z_running R Arith_double double_root 3 (map (in_double (-2)) [Some 101; Some 101; None; Some 101; Some 101; Some 101]%Z) = [NaN; NaN; NaN; NaN; NaN; NaN].
Proof. apply (C117_flat_ticks (-2) 101 3); try lia. intros x Hx. cbn in Hx. intuition. Qed.
Example C117_flat_case : is_double (to_double (Q2R (1 # 10))) /\ forall x, In x (held [1 # 10; 1 # 10]) -> x = NaN \/ x = Fin (to_double (Q2R (1 # 10))).
Proof.
  split; [apply to_double_nearest|]. intros x Hx. apply in_map_iff in Hx as (q & <- & Hq). right. destruct Hq as [<-|[<-|[]]]; reflexivity.
Qed.
