(** Every CUSUM event uses up more than the threshold of the distance travelled. *)
From Coq Require Import ZArith QArith Qabs Lqa Lia List.
From Verif Require Import Prelude PreludeFacts Num Series Cusum_Model Cusum_Restart_Spec Cusum_Restart_Proofs Cusum_Path_Spec.
Import ListNotations.
Local Open Scope nat_scope.

Lemma travelled_move (p : nat -> Q) (i d : nat) : (Qabs (p (i + d)%nat - p i) <= travelled p (i + d)%nat - travelled p i)%Q.
Proof.
  induction d as [|d IH]; [rewrite Nat.add_0_r; setoid_replace (p i - p i)%Q with 0%Q by ring; cbn; lra|]. rewrite Nat.add_succ_r. cbn [travelled].
  setoid_replace (p (S (i + d)%nat) - p i)%Q with ((p (S (i + d)%nat) - p (i + d)%nat) + (p (i + d)%nat - p i))%Q by ring.
  eapply Qle_trans; [apply Qabs_triangle|]. lra.
Qed.
Lemma travelled_mono p (i j : nat) : i <= j -> (travelled p i <= travelled p j)%Q.
Proof. intros H. pose proof (travelled_move p i (j - i)) as M. replace (i + (j - i)) with j in M by lia. pose proof (Qabs_nonneg (p j - p i)). lra. Qed.
Lemma spent h p n E : (0 <= h)%Q -> moves h p n (fun k => E k = true) -> forall k, k <= n -> (inject_Z (Z.of_nat (cnt E k)) * h <= travelled p (lst E k))%Q.
Proof.
  intros Hh M k. induction k as [|k IH]; intros Hk; [change (inject_Z (Z.of_nat (cnt E 0))) with 0%Q; change (travelled p (lst E 0)) with 0%Q; lra|]. specialize (IH ltac:(lia)). cbn [cnt lst]. destruct (E k) eqn:Ek; [|exact IH].
  apply (moves_lst h p n E M k ltac:(lia)) in Ek. destruct Ek as (i & [L Hi] & G). pose proof (travelled_move p i (k - i)) as T. replace (i + (k - i)) with k in T by lia. pose proof (travelled_mono p _ _ L).
  rewrite Nat2Z.inj_add, inject_Z_plus. change (inject_Z (Z.of_nat 1)) with 1%Q. lra.
Qed.
Lemma event_budget h X ev : (0 <= h)%Q -> NoDup (map fst X) -> cusum_transform h (fin_rows X) = Ok ev ->
  (inject_Z (Z.of_nat (length ev)) * h <= travelled (prices X) (length X - 1))%Q.
Proof.
  intros Hh N H. destruct (events_of h X Hh N) as (E & M & EQ). rewrite H in EQ. injection EQ as ->. rewrite picks_length, map_length.
  eapply Qle_trans; [exact (spent h _ _ E Hh M (length X) (Nat.le_refl _))|]. apply travelled_mono.
  destruct (length X) as [|k] eqn:L; [cbn; lia|]. cbn [lst]. destruct (E k); [lia|]. pose proof (lst_le E k). lia.
Qed.
