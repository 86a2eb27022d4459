(** C124: away from the thresholds, events and labels survive small revisions of the prices. *)
From Coq Require Import Reals ZArith QArith Qabs Lra Lia List String Permutation.
From Verif Require Import Prelude PreludeFacts Num Series Cusum_Model Cusum_Spec Cusum_Props Label_Model Label_Spec Label_Proofs3 Label_Props Stable_Spec Stable_Label_Proofs Stable_Label_Proofs2 Stable_Label_Proofs3.
Import ListNotations.
Local Notation length := List.length.

(** ** CUSUM events *)

(** Every price moves by at most [e]; no rise or fall between two bars comes within [2 e] of the threshold: the events are the same. *)
Theorem C124_events : forall (h e : Q) (X X' : list (Z * Q)), (0 <= h)%Q -> NoDup (map fst X) ->
  Forall2 (fun r r' => fst r = fst r' /\ Qabs (snd r - snd r') <= e)%Q X X' ->
  (forall i k, (i < k < length X)%nat -> let m := nth k (map snd X) 0 - nth i (map snd X) 0 in 2 * e < Qabs (m - h) /\ 2 * e < Qabs (m + h))%Q ->
  cusum_transform h (map (fun r => (fst r, Fin (snd r))) X') = cusum_transform h (map (fun r => (fst r, Fin (snd r))) X).
Proof. exact events_stable. Qed.
Print Assumptions C124_events.

(** The distance is needed: whatever [e], two series at most [e] apart, of which only the second has an event. *)
Theorem C124_events_margin_needed : forall e, (0 < e)%Q -> exists X X' : list (Z * Q),
  Forall2 (fun r r' => fst r = fst r' /\ Qabs (snd r - snd r') <= e)%Q X X' /\
  cusum_transform 1%Q (map (fun r => (fst r, Fin (snd r))) X) = Ok [] /\
  cusum_transform 1%Q (map (fun r => (fst r, Fin (snd r))) X') = Ok [20%Z].
Proof. exact events_margin. Qed.
Print Assumptions C124_events_margin_needed.

Example C124_events_case :
  let X := [(10, 5 # 1); (20, 8 # 1); (30, 8 # 1); (40, 5 # 1)]%Z%Q in let X' := [(10, 5 # 1); (20, 33 # 4); (30, 8 # 1); (40, 19 # 4)]%Z%Q in let e := (2 # 5)%Q in
  Forall2 (fun r r' => fst r = fst r' /\ Qabs (snd r - snd r') <= e)%Q X X' /\
  (forall i k, (i < k < 4)%nat -> let m := nth k (map snd X) 0 - nth i (map snd X) 0 in 2 * e < Qabs (m - 2) /\ 2 * e < Qabs (m + 2))%Q /\
  cusum_transform (2 # 1)%Q (map (fun r => (fst r, Fin (snd r))) X) = Ok [20; 40]%Z.
Proof.
  cbv zeta. split; [|split; [|vm_compute; reflexivity]].
  - repeat (apply Forall2_cons; [split; [reflexivity|apply Qle_bool_iff; reflexivity]|]). apply Forall2_nil.
  - intros i k H. destruct i as [|[|[|i]]], k as [|[|[|[|k]]]]; try lia; split; reflexivity.
Qed.

(** ** Labels *)
Local Open Scope R_scope.

(** Two inputs with the same bar times and sides. Event [i]: its returns move by at most [d] and its volatility by at most [ev], and no
    side return comes nearer to a barrier in use than that. It ends at the same time, and has the same label unless its return is within [d] of zero. *)
Theorem C124_labels : forall dv dv' order order' (cfg : config R) y y' close close' out out' i o o' s d ev v v' c0 c0',
  valid_times (f_index y) -> f_index y' = f_index y -> well_formed y -> well_formed y' -> (0 <= n_expiration_bars cfg)%Z ->
  Permutation order (seq 0 (length (f_index y))) -> Permutation order' (seq 0 (length (f_index y))) ->
  column y (close_column cfg) = Some close -> column y' (close_column cfg) = Some close' ->
  (forall x, In x close -> exists c, x = Fin c) -> (forall x, In x close' -> exists c, x = Fin c) ->
  event_side y i (Fin s) -> event_side y' i (Fin s) -> s = 1 \/ s = -1 ->
  transform dv order cfg y = Ok out -> transform dv' order' cfg y' = Ok out' ->
  nth_error out i = Some o -> nth_error out' i = Some o' -> o_vol o = Fin v -> o_vol o' = Fin v' -> Rabs (v - v') <= ev ->
  nth_error close i = Some (Fin c0) -> nth_error close' i = Some (Fin c0') -> c0 <> 0 -> c0' <> 0 ->
  (forall k c c', (i <= k)%nat -> nth_error close k = Some (Fin c) -> nth_error close' k = Some (Fin c') ->
    Rabs (c / c0 - c' / c0') <= d /\
    (0 < profit_taking_factor cfg -> d + profit_taking_factor cfg * ev < Rabs ((c / c0 - 1) * s - profit_taking_factor cfg * v)) /\
    (0 < stop_loss_factor cfg -> d + stop_loss_factor cfg * ev < Rabs ((c / c0 - 1) * s + stop_loss_factor cfg * v))) ->
  o_end o' = o_end o /\ ((forall r, o_return o = Fin r -> d < Rabs r) -> o_label o' = o_label o).
Proof. exact labels_moved. Qed.
Print Assumptions C124_labels.

(** What [d] is when every price is revised by at most the fraction [f] of itself. *)
Theorem C124_returns : forall f c c' c0 c0', 0 <= f < 1 -> 0 < c -> 0 < c0 -> Rabs (c' - c) <= f * c -> Rabs (c0' - c0) <= f * c0 ->
  0 < c0' /\ Rabs (c / c0 - c' / c0') <= 2 * f / (1 - f) * (c / c0).
Proof. exact returns_moved. Qed.
Print Assumptions C124_returns.

(** The distance is needed: whatever [e], two inputs at most [e] apart whose first event ends at different bars. *)
Theorem C124_labels_margin_needed : forall e, 0 < e -> exists dv order (cfg : config R) y y' c c' out out' o o',
  valid_times (f_index y) /\ f_index y' = f_index y /\ column y (close_column cfg) = Some c /\ column y' (close_column cfg) = Some c' /\ revised e c c' /\
  transform dv order cfg y = Ok out /\ transform dv order cfg y' = Ok out' /\ nth_error out 0 = Some o /\ nth_error out' 0 = Some o' /\
  o_end o = nth_error (f_index y) 2 /\ o_end o' = nth_error (f_index y) 1 /\ o_end o <> o_end o'.
Proof. exact labels_margin. Qed.
Print Assumptions C124_labels_margin_needed.

(** A case that meets the hypotheses of [C124_labels]: the price trebles, reported as 3 and as 3.1; the barriers are at plus and minus 100%. *)
Example C124_labels_case : exists out out' o o', transform flat_vol [2; 0; 1]%nat three_cfg (three 3) = Ok out /\ transform flat_vol [0; 1; 2]%nat three_cfg (three (31 / 10)) = Ok out' /\
  nth_error out 0 = Some o /\ nth_error out' 0 = Some o' /\ o_vol o = Fin 1 /\ o_vol o' = Fin 1 /\
  (forall k c c', (0 <= k)%nat -> nth_error [Fin 1; Fin 3; Fin 1] k = Some (Fin c) -> nth_error [Fin 1; Fin (31 / 10); Fin 1] k = Some (Fin c') ->
    Rabs (c / 1 - c' / 1) <= 1 / 10 /\ (0 < 1 -> 1 / 10 + 1 * 0 < Rabs ((c / 1 - 1) * 1 - 1 * 1)) /\ (0 < 1 -> 1 / 10 + 1 * 0 < Rabs ((c / 1 - 1) * 1 + 1 * 1))) /\
  o_end o = Some 20000000%Z /\ o_end o' = Some 20000000%Z.
Proof.
  destruct (three_row [2; 0; 1]%nat 3 ltac:(apply (perm_trans (perm_swap 0%nat 2%nat [1%nat])); apply perm_skip, perm_swap) ltac:(lra)) as (out & o & T & O & V & _ & E).
  destruct (three_row [0; 1; 2]%nat (31 / 10) ltac:(reflexivity) ltac:(lra)) as (out' & o' & T' & O' & V' & _ & E'). exists out, out', o, o'.
  repeat (split; [assumption|]). split; [|split; [apply E; lra|apply E'; lra]].
  intros [|[|[|k]]] c c' _ A B; cbn in A, B; try (destruct k; discriminate); injection A as <-; injection B as <-; unfold Rabs; (split; [destruct (Rcase_abs _); lra|]); split; intros _; destruct (Rcase_abs _); lra.
Qed.
