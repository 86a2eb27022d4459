(** C125: at every event the CUSUM filter starts afresh. *)
From Coq Require Import ZArith QArith Qabs List.
From Verif Require Import Prelude PreludeFacts Num Series Cusum_Model Cusum_Restart_Spec Cusum_Restart_Proofs.
Import ListNotations.
Local Open Scope nat_scope.

(** The events are those of the positions at which the price differs by more than the threshold from a price since the last event (or the start). *)
Theorem C125_exact : forall h (X : list (Z * Q)), (0 <= h)%Q -> NoDup (map fst X) ->
  exists E : nat -> bool, moves h (fun k => nth k (map snd X) 0%Q) (length X) (fun k => E k = true) /\
    cusum_transform h (map (fun r => (fst r, Fin (snd r))) X) = Ok (map (fun k => nth k (map fst X) 0%Z) (filter E (seq 0 (length X)))).
Proof. exact exact_moves. Qed.
Print Assumptions C125_exact.

(** The condition determines the positions. *)
Theorem C125_unique : forall h p n U V, moves h p n U -> moves h p n V -> forall k, k < n -> (U k <-> V k).
Proof. exact moves_unique. Qed.
Print Assumptions C125_unique.

(** A run that has an event at [t] is a run up to [t], [t], and a new run started at [t]. *)
Theorem C125_restart : forall h (P : list (Z * Q)) t q S, (0 <= h)%Q -> NoDup (map fst (P ++ (t, q) :: S)) ->
  exists before all after, cusum_transform h (map (fun r => (fst r, Fin (snd r))) P) = Ok before /\
    cusum_transform h (map (fun r => (fst r, Fin (snd r))) (P ++ (t, q) :: S)) = Ok all /\
    cusum_transform h (map (fun r => (fst r, Fin (snd r))) ((t, q) :: S)) = Ok after /\
    (In t all -> all = before ++ t :: after).
Proof. exact restart. Qed.
Print Assumptions C125_restart.

(** Leaving out the early history [P] removes at most one of the events at the remaining times, and adds none in number. *)
Theorem C125_late_start : forall h (P S : list (Z * Q)), (0 <= h)%Q -> NoDup (map fst (P ++ S)) ->
  exists all ev, cusum_transform h (map (fun r => (fst r, Fin (snd r))) (P ++ S)) = Ok all /\ cusum_transform h (map (fun r => (fst r, Fin (snd r))) S) = Ok ev /\
    length ev <= length (filter (fun t => existsb (Z.eqb t) (map fst S)) all) <= length ev + 1.
Proof. exact late_start. Qed.
Print Assumptions C125_late_start.

(** From the first event they have in common on, the two runs agree. *)
Theorem C125_agree : forall h (P S : list (Z * Q)) all ev t, (0 <= h)%Q -> increasingZ (map fst (P ++ S)) ->
  cusum_transform h (map (fun r => (fst r, Fin (snd r))) (P ++ S)) = Ok all -> cusum_transform h (map (fun r => (fst r, Fin (snd r))) S) = Ok ev ->
  In t all -> In t ev -> filter (Z.ltb t) all = filter (Z.ltb t) ev.
Proof. exact agree_after. Qed.
Print Assumptions C125_agree.

Definition rows (l : list (Z * Q)) : list (Z * ext Q) := map (fun r => (fst r, Fin (snd r))) l.
(** Both bounds are reached, and in a steady climb the two runs have no event in common. *)
Example C125_one_less : cusum_transform (5 # 1) (rows [(1, 2 # 1); (2, 2 # 1); (3, 8 # 1); (4, 3 # 1)]%Z) = Ok [3%Z] /\ cusum_transform (5 # 1) (rows [(3, 8 # 1); (4, 3 # 1)]%Z) = Ok [].
Proof. split; vm_compute; reflexivity. Qed.
Example C125_climb : let X := [(1, 1 # 1); (2, 2 # 1); (3, 3 # 1); (4, 4 # 1); (5, 5 # 1); (6, 6 # 1); (7, 7 # 1); (8, 8 # 1)]%Z in
  cusum_transform (3 # 2) (rows X) = Ok [3; 5; 7]%Z /\ cusum_transform (3 # 2) (rows (tl X)) = Ok [4; 6; 8]%Z.
Proof. split; vm_compute; reflexivity. Qed.
Example C125_agree_case : let P := [(1, 5 # 1); (2, 7 # 1)]%Z in let S := [(3, 6 # 1); (4, 1 # 1); (5, 9 # 1); (6, 4 # 1); (7, 8 # 1)]%Z in
  increasingZ (map fst (P ++ S)) /\ cusum_transform (7 # 2) (rows (P ++ S)) = Ok [4; 5; 6; 7]%Z /\ cusum_transform (7 # 2) (rows S) = Ok [4; 5; 6; 7]%Z.
Proof. split; [unfold increasingZ; repeat constructor|split; vm_compute; reflexivity]. Qed.
