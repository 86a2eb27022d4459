(** When the least-squares estimate exists. *)
From Coq Require Import Reals Lra.
From Verif Require Import PreludeFacts Series OLS_Model OLS_Spec OLS_Proofs.
Local Open Scope nat_scope.

Lemma ols_defined inv X y : inv_sound inv -> inv_complete (nc X) inv -> nr y = nr X ->
  (exists b V, get_beta_and_beta_var inv X y = Ok (b, V)) <-> (exists N, inverse_of (gram X) N).
Proof.
  intros Hs Hc Hr. unfold get_beta_and_beta_var.
  unfold mdot at 1. cbn [tr nc nr]. rewrite Hr, Nat.eqb_refl. cbn [bind].
  unfold mdot at 1. cbn [tr nc nr]. rewrite Nat.eqb_refl. cbn [bind].
  match goal with |- context [inv ?M] => change M with (gram X) end.
  split.
  - intros (b & V & H). destruct (inv (gram X)) as [N|] eqn:E; [|discriminate]. exists N. now apply Hs.
  - intros (N0 & HN0). destruct (Hc (gram X) N0 eq_refl HN0) as (N & HN).
    pose proof (Hs _ _ HN) as (_ & En & Em & _). cbn [gram nr nc] in En, Em. rewrite HN. cbn [bind].
    unfold mdot at 1. cbn [tr nc nr]. rewrite Em, Nat.eqb_refl. cbn [bind].
    unfold mdot at 1. cbn [tr nc nr]. rewrite En, Nat.eqb_refl. cbn [bind].
    unfold mdot at 1. cbn [tr nc nr]. rewrite ?Hr, Nat.eqb_refl. cbn [bind]. eauto.
Qed.
