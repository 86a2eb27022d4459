(** Margins in numbers, and cases on both sides of a threshold, for C124. *)
From Coq Require Import Reals ZArith QArith Qabs Lqa Lia List String Permutation.
From Verif Require Import Prelude PreludeFacts Num Series Cusum_Model Cusum_Spec Cusum_Props Label_Model Label_Spec Label_Proofs3 Label_Props Stable_Spec Stable_Label_Proofs.
Import ListNotations.
Local Notation length := List.length.

Section Events.
  Local Open Scope Q_scope.
  Lemma near_pos (e x x' : Q) : Qabs (x - x') <= e -> - e <= x - x' /\ x - x' <= e.
  Proof. apply Qabs_Qle_condition. Qed.
  Lemma far_pos (e x : Q) : e < Qabs x -> e < x \/ x < - e.
  Proof. intros H. destruct (Qlt_le_dec x 0) as [N|N]; [right; rewrite Qabs_neg in H by lra; lra|left; rewrite Qabs_pos in H by lra; exact H]. Qed.
  Lemma near_nth (e : Q) (X X' : list (Z * Q)) : Forall2 (fun r r' => fst r = fst r' /\ Qabs (snd r - snd r') <= e) X X' ->
    forall k, (k < length X)%nat -> - e <= nth k (map snd X) 0 - nth k (map snd X') 0 /\ nth k (map snd X) 0 - nth k (map snd X') 0 <= e.
  Proof. induction 1 as [|r r' X X' [_ H] F IH]; intros k Hk; cbn in Hk; [lia|]. destruct k as [|k]; cbn; [now apply near_pos|apply IH; lia]. Qed.
  Lemma events_stable : forall (h e : Q) (X X' : list (Z * Q)), (0 <= h)%Q -> NoDup (map fst X) ->
    Forall2 (fun r r' => fst r = fst r' /\ Qabs (snd r - snd r') <= e)%Q X X' ->
    (forall i k, (i < k < length X)%nat -> let m := nth k (map snd X) 0 - nth i (map snd X) 0 in 2 * e < Qabs (m - h) /\ 2 * e < Qabs (m + h))%Q ->
    cusum_transform h (map (fun r => (fst r, Fin (snd r))) X') = cusum_transform h (map (fun r => (fst r, Fin (snd r))) X).
  Proof.
    intros h e X X' Hh N F M. symmetry. apply events_moved; [exact Hh|exact N|induction F as [|r r' X X' [E _] F IH]; [reflexivity|]; cbn; rewrite E; f_equal; apply IH| |].
    - inversion N; assumption.
    - intros i k Hk. specialize (M (S i) (S k)). apply M. cbn; lia.
    - intros i k Hk. destruct (M i k Hk) as [A _]. destruct (near_nth e X X' F i ltac:(lia)). destruct (near_nth e X X' F k ltac:(lia)). apply far_pos in A. split; intros; lra.
    - intros i k Hk. destruct (M i k Hk) as [_ A]. destruct (near_nth e X X' F i ltac:(lia)). destruct (near_nth e X X' F k ltac:(lia)). apply far_pos in A. split; intros; lra.
  Qed.
  Lemma events_margin : forall e, (0 < e)%Q -> exists X X' : list (Z * Q),
    Forall2 (fun r r' => fst r = fst r' /\ Qabs (snd r - snd r') <= e)%Q X X' /\
    cusum_transform 1%Q (map (fun r => (fst r, Fin (snd r))) X) = Ok [] /\
    cusum_transform 1%Q (map (fun r => (fst r, Fin (snd r))) X') = Ok [20%Z].
  Proof.
    intros e He. exists [(10%Z, 0); (20%Z, 1)], [(10%Z, 0); (20%Z, 1 + e)]. split; [|split; [vm_compute; reflexivity|]].
    - apply Forall2_cons; [split; [reflexivity|cbn; lra]|]. apply Forall2_cons; [split; [reflexivity|]|apply Forall2_nil]. cbn [snd]. rewrite Qabs_neg by lra. lra.
    - destruct (C22_exact_crossings 1 [(10%Z, 0); (20%Z, 1 + e)] ltac:(lra)) as (u & d & U & D & _ & ->). { repeat constructor; cbn; intuition lia. }
      assert (U0 : u 0%nat = false). { destruct (u 0%nat) eqn:E; [|reflexivity]. apply (U 0%nat ltac:(cbn; lia)) in E. destruct E as (i & ? & _). lia. }
      assert (D0 : d 0%nat = false). { destruct (d 0%nat) eqn:E; [|reflexivity]. apply (D 0%nat ltac:(cbn; lia)) in E. destruct E as (i & ? & _). lia. }
      assert (U1 : u 1%nat = true). { apply (U 1%nat ltac:(cbn; lia)). exists 0%nat. split; [lia|]. split; [intros v Hv L; lia|cbn; lra]. }
      cbn. rewrite U0, D0, U1. reflexivity.
  Qed.
End Events.
