(** C128: the number of CUSUM events is limited by the distance the price travels. *)
From Coq Require Import ZArith QArith Qabs List Lqa.
From Verif Require Import Prelude PreludeFacts Num Series Cusum_Model Cusum_Restart_Spec Cusum_Restart_Proofs Cusum_Restart_Props Cusum_Path_Spec Cusum_Path_Proofs.
Import ListNotations.
Local Open Scope nat_scope.

(** The number of events times the threshold is at most the sum of the absolute moves of the price. *)
Theorem C128_event_budget : forall h (X : list (Z * Q)) ev, (0 <= h)%Q -> NoDup (map fst X) ->
  cusum_transform h (map (fun r => (fst r, Fin (snd r))) X) = Ok ev ->
  (inject_Z (Z.of_nat (length ev)) * h <= travelled (fun k => nth k (map snd X) 0%Q) (length X - 1))%Q.
Proof. exact event_budget. Qed.
Print Assumptions C128_event_budget.

(** So a price that travels less than the threshold gives no event. *)
Theorem C128_quiet_market : forall h (X : list (Z * Q)), (0 < h)%Q -> NoDup (map fst X) ->
  (travelled (fun k => nth k (map snd X) 0%Q) (length X - 1) < h)%Q -> cusum_transform h (map (fun r => (fst r, Fin (snd r))) X) = Ok [].
Proof.
  intros h X Hh N T. destruct (C125_exact h X ltac:(lra) N) as (E & _ & EQ). pose proof (C128_event_budget h X _ ltac:(lra) N EQ) as B. rewrite EQ. f_equal.
  destruct (map _ (filter E _)) as [|t l]; [reflexivity|]. exfalso. cbn [length] in B. rewrite Nat2Z.inj_succ, <- Z.add_1_l, inject_Z_plus in B.
  assert (Q0 : (0 <= inject_Z (Z.of_nat (length l)))%Q) by (rewrite <- (Zle_Qle 0); apply Nat2Z.is_nonneg). assert (Q1 : (0 <= inject_Z (Z.of_nat (length l)) * h)%Q) by (apply Qmult_le_0_compat; lra).
  change (inject_Z 1) with 1%Q in B. lra.
Qed.
Print Assumptions C128_quiet_market.

(** The limit is nearly reached by a climb in steps just above the threshold: three events, and moves that add up to 3.3 thresholds. *)
Example C128_case : cusum_transform 1%Q (rows [(1, 0 # 1); (2, 11 # 10); (3, 22 # 10); (4, 33 # 10)]%Z) = Ok [2; 3; 4]%Z /\
  (travelled (fun k => nth k [0 # 1; 11 # 10; 22 # 10; 33 # 10] 0) 3 == 33 # 10)%Q.
Proof. split; vm_compute; reflexivity. Qed.
