(** A run of the SADF test without logarithms. *)
From Coq Require Import Reals Lra String.
From Verif Require Import PreludeFacts Series OLS_Model OLS_Spec OLS_Proofs Trend_Spec Trend_Proofs4 Break_Model Break_Spec Break_Proofs4 Break_Cases.
Local Open Scope nat_scope.

Definition ex_prices : list (Z * R) := [(0, 0%R); (1, 1%R); (2, 0%R); (3, 1%R); (4, 1%R); (5, 0%R)]%Z.

Lemma ex_prices_run : exists out, sadf_run inv_small "no_trend" 1 3 false 0 ex_prices = Ok out.
Proof.
  apply (proj2 (c46_defined inv_small inv_small_sound "no_trend" 1 3 false 0 ltac:(left; split; [reflexivity|lia]) ex_prices ltac:(cbn; lia) inv_small_complete_2)).
  split; [cbn; lia|]. split; [intros H; discriminate H|]. intros start stop H1 H2. cbn [n_rows is_standard ex_prices List.length] in H2. assert (stop = 4) as -> by (cbn in H2; lia).
  assert (start = 0 \/ start = 1) as [-> | ->] by lia; intros [H|[b H]].
  - destruct (det_inverse (X_of "no_trend" 1 false (vals ex_prices) 0 4) eq_refl) as [N HN]; [|now apply (H N)]. cbn. lra.
  - unfold sse in H. pose proof (rsumn_zero_inv _ _ (fun i _ => Rle_0_sqr (resid (X_of "no_trend" 1 false (vals ex_prices) 0 4) (Y_of "no_trend" 1 (vals ex_prices) 0 4) b i)) H) as Z.
    pose proof (Rsqr_0_uniq _ (Z 0 ltac:(cbn; lia))) as Z0. pose proof (Rsqr_0_uniq _ (Z 1 ltac:(cbn; lia))) as Z1. pose proof (Rsqr_0_uniq _ (Z 2 ltac:(cbn; lia))) as Z2.
    unfold resid in Z0, Z1, Z2. cbn in Z0, Z1, Z2. lra.
  - destruct (det_inverse (X_of "no_trend" 1 false (vals ex_prices) 1 4) eq_refl) as [N HN]; [|now apply (H N)]. cbn. lra.
  - unfold sse in H. pose proof (rsumn_zero_inv _ _ (fun i _ => Rle_0_sqr (resid (X_of "no_trend" 1 false (vals ex_prices) 1 4) (Y_of "no_trend" 1 (vals ex_prices) 1 4) b i)) H) as Z.
    pose proof (Rsqr_0_uniq _ (Z 0 ltac:(cbn; lia))) as Z0. pose proof (Rsqr_0_uniq _ (Z 1 ltac:(cbn; lia))) as Z1. pose proof (Rsqr_0_uniq _ (Z 2 ltac:(cbn; lia))) as Z2.
    unfold resid in Z0, Z1, Z2. cbn in Z0, Z1, Z2. lra.
Qed.
