(** C108: sizes given as fractions to the bagging classifier. *)
From Coq Require Import Reals ZArith QArith Qreals Lia Lra List.
From Flocq Require Import Core.
From Verif Require Import Num QSum Boot_Model Boot_Spec Bag_Model Bag_Spec Bag_Proofs3 Bag_Proofs4 Bag_Props Rounding_Model Double_Model Double_Spec Double_Proofs Rounding_Proofs Rounding_Proofs2 CV_Model Rounding_Proofs3.
Import ListNotations.
Local Open Scope R_scope.

(** The rounding by integers that the models use gives a nearest double, and it is the one that Double_Model.v uses. *)
Theorem C108_rounding : forall q, nearest (Q2R q) (Q2R (rounded q)) /\ Q2R (rounded q) = to_double (Q2R q).
Proof. intros q. rewrite rounded_double. split; [apply to_double_nearest|reflexivity]. Qed.
Print Assumptions C108_rounding.

(** `int(a / b)`, with which the number of splits and of backtest paths is computed (C02, C10), is the whole part of the double nearest
    to a/b. *)
Theorem C108_division : forall a b v, (0 <= a)%Z -> (0 < b)%Z -> int_truediv a b = Ok v -> 
  exists y, nearest (IZR a / IZR b) y /\ IZR v <= y < IZR v + 1.
Proof.
  intros a b v Ha Hb H. exists (to_double (IZR a / IZR b)). split; [apply to_double_nearest|].
  rewrite (int_truediv_double a b v Ha Hb H). split; [apply Zfloor_lb|apply Zfloor_ub].
Qed.
Print Assumptions C108_division.

(** Every estimator is trained on the same number of rows, which is within one rounding of the fraction of the rows, rounded down. *)
Theorem C108_sample_count : forall (num gen est0 model : Type) (np : numpy gen) (est : estimator num gen est0 model) p jobs schedule (d : data num) self h h' a samples q,
  (0 < jobs)%nat -> fit num gen est0 model np est p jobs schedule d self h = Ok (h', a) ->
  (warm_start p = true -> ensemble model self = None) -> samples_info_sets p = complete samples -> NoDup (map fst samples) ->
  length (d_index num d) = length (d_rows num d) -> (forall g, fair_choice (choices gen np g)) -> (0 < update_probs_every p)%Z ->
  max_samples p = SFloat (Fin q) ->
  let product := Q2R q * INR (length (d_rows num d)) in
  exists ts k, ensemble model a = Some ts /\ (forall t, In t ts -> length (t_samples model t) = k) /\ (1 <= k <= length (d_rows num d))%nat /\
    INR k <= product * (1 + / 2 ^ 53) /\ product * (1 - / 2 ^ 53) < INR k + 1.
Proof.
  intros num gen est0 model np est p jobs schedule d self h h' a samples q H1 H2 H3 H4 H5 H6 H7 H8 Hq product.
  destruct (C50_training num gen est0 model np est p jobs schedule d self h h' a samples H1 H2 H3 H4 H5 H6 H7 H8)
    as (ts & given & y & m & ms & mf & A & _ & _ & _ & S & _ & G).
  exists ts, ms. split; [exact A|]. split; [intros t Ht; apply In_nth_error in Ht; destruct Ht as [k Ht]; apply (G k t Ht)|].
  rewrite Hq in S. split; [apply S|]. now apply sample_size_close.
Qed.
Print Assumptions C108_sample_count.

(** If the fraction [f] of the rows is a whole number [K], the user who writes [f] (as the nearest double [q]) gets [K] rows or one less. *)
Theorem C108_fraction_partial : forall (num gen est0 model : Type) (np : numpy gen) (est : estimator num gen est0 model) p jobs schedule (d : data num) self h h' a samples f q K,
  (0 < jobs)%nat -> fit num gen est0 model np est p jobs schedule d self h = Ok (h', a) ->
  (warm_start p = true -> ensemble model self = None) -> samples_info_sets p = complete samples -> NoDup (map fst samples) ->
  length (d_index num d) = length (d_rows num d) -> (forall g, fair_choice (choices gen np g)) -> (0 < update_probs_every p)%Z ->
  max_samples p = SFloat (Fin q) -> nearest (Q2R f) (Q2R q) -> (f * Qn (length (d_rows num d)) == Qn K)%Q ->
  (1 <= K <= length (d_rows num d))%nat -> (Z.of_nat (length (d_rows num d)) <= 2 ^ 50)%Z ->
  exists ts k, ensemble model a = Some ts /\ (forall t, In t ts -> length (t_samples model t) = k) /\ (k = K \/ S k = K).
Proof.
  intros num gen est0 model np est p jobs schedule d self h h' a samples f q K H1 H2 H3 H4 H5 H6 H7 H8 Hq Hf HK HK' Hn.
  destruct (C50_training num gen est0 model np est p jobs schedule d self h h' a samples H1 H2 H3 H4 H5 H6 H7 H8)
    as (ts & given & y & m & ms & mf & A & _ & _ & _ & S & _ & G).
  exists ts, ms. split; [exact A|]. split; [intros t Ht; apply In_nth_error in Ht; destruct Ht as [k Ht]; apply (G k t Ht)|].
  rewrite Hq in S. eapply sample_size_fraction; eauto.
Qed.
Print Assumptions C108_fraction_partial.

(** One less does happen: 0.29 of 100 rows is 28 rows. *)
Theorem C108_fraction_refuted : exists f n K, (f * Qn n == Qn K)%Q /\ check_max_samples (SFloat (Fin (rounded f))) n = Ok (K - 1)%nat /\ (1 < K)%nat.
Proof. exists (29 # 100)%Q, 100%nat, 29%nat. split; [reflexivity|]. split; [vm_compute; reflexivity|lia]. Qed.
Print Assumptions C108_fraction_refuted.

(** And a fraction that stands for one row can be rejected: 1/49 of 49 rows. For two rows and more this cannot happen. *)
Theorem C108_one_row_refuted : exists f n, (f * Qn n == 1)%Q /\ check_max_samples (SFloat (Fin (rounded f))) n = Err ValueError.
Proof. exists (1 # 49)%Q, 49%nat. split; [reflexivity|]. vm_compute. reflexivity. Qed.
Print Assumptions C108_one_row_refuted.
Theorem C108_accepted : forall f q n K, (Z.of_nat n <= 2 ^ 50)%Z -> (2 <= K <= n)%nat -> (f * Qn n == Qn K)%Q -> nearest (Q2R f) (Q2R q) ->
  exists k, check_max_samples (SFloat (Fin q)) n = Ok k.
Proof.
  intros f q n K H1 H2 H3 H4. destruct (sample_size_exists f q n K H1 H2 H3 H4) as [k Hk]. exists k. apply check_samples_spec; [lia|exact Hk].
Qed.
Print Assumptions C108_accepted.

(** The default 1.0 stands for all rows and all features. *)
Theorem C108_default : forall n, (0 < n)%nat -> (Z.of_nat n <= 2 ^ 52)%Z ->
  check_max_samples (SFloat (Fin 1%Q)) n = Ok n /\ check_max_features (SFloat (Fin 1%Q)) n = Ok n.
Proof.
  intros n H0 H. split; [apply check_samples_spec; [exact H0|now apply sample_size_one]|apply check_features_spec; [exact H0|now apply feature_size_one]].
Qed.
Print Assumptions C108_default.

(** A larger fraction never stands for fewer rows. *)
Theorem C108_monotone : forall q q' n k k', (0 < n)%nat -> (q <= q')%Q ->
  check_max_samples (SFloat (Fin q)) n = Ok k -> check_max_samples (SFloat (Fin q')) n = Ok k' -> (k <= k')%nat.
Proof.
  intros q q' n k k' H0 Hq H H'. apply check_samples_spec in H; [|exact H0]. apply check_samples_spec in H'; [|exact H0].
  exact (sample_size_monotone q q' n k k' Hq H H').
Qed.
Print Assumptions C108_monotone.

(** A fraction of the features is accepted exactly if it is above 0 and at most 1: no double is so close to 1 that it slips through. *)
Theorem C108_features : forall q n, is_double (Q2R q) -> (0 < n)%nat -> (Z.of_nat n < 2 ^ 52)%Z ->
  ((exists k, check_max_features (SFloat (Fin q)) n = Ok k) <-> (0 < q <= 1)%Q).
Proof.
  intros q n Hq H0 H. rewrite <- (feature_size_accepts q n Hq H0 H). split; intros [k Hk]; exists k; now apply check_features_spec.
Qed.
Print Assumptions C108_features.

(** 0.7 as a double is below 7/10, and 0.7 * 10 is still 7; 0.1 + 0.2 is not 0.3. *)
Example C108_seven : (rounded (7 # 10) < 7 # 10)%Q /\ check_max_samples (SFloat (Fin (rounded (7 # 10)))) 10 = Ok 7%nat.
Proof. split; [reflexivity|vm_compute; reflexivity]. Qed.
Example C108_sum : Qeq_bool (rounded (rounded (1 # 10) + rounded (2 # 10))) (rounded (3 # 10)) = false.
Proof. vm_compute. reflexivity. Qed.
(** The smallest positive double, ties to even, large numbers. *)
Example C108_edges : (rounded (1 # 2 ^ 1075) == 0)%Q /\ (rounded (3 # 2 ^ 1075) == 4 # 2 ^ 1075)%Q /\ (rounded (inject_Z (2 ^ 53 + 1)) == inject_Z (2 ^ 53))%Q /\
  (rounded (- inject_Z (2 ^ 53 + 3)) == - inject_Z (2 ^ 53 + 4))%Q.
Proof. repeat split; vm_compute; reflexivity. Qed.
(** fit with a fraction: 2/3 of three rows are two rows. *)
Definition ex_fraction : params :=
  {| samples_info_sets := complete ex_samples; price_bars := [5; 10; 20; 25; 30; 60]%Z; n_estimators := 2; max_samples := SFloat (Fin (rounded (2 # 3))); max_features := SInt 1;
     bootstrap_features := false; oob_score := false; warm_start := false; random_state := 0; update_probs_every := 1 |}.
Example C108_case : nearest (Q2R (2 # 3)) (Q2R (rounded (2 # 3))) /\ match ex_fit ex_fraction 2 [1; 0]%nat ex_data fresh ex_heap with
  | Ok (_, {| ensemble := Some ts |}) => map (fun t => length (t_samples ex_model t)) ts = [2; 2]%nat
  | _ => False
  end.
Proof. split; [apply C108_rounding|]. vm_compute. reflexivity. Qed.
(** 49 * (1/49) is below 1, but 49 / 49 is 1; above 2^53 the quotient is rounded. *)
Example C108_quotients : int_truediv 49 49 = Ok 1%Z /\ int_truediv 99 100 = Ok 0%Z /\ int_truediv (2 ^ 54 + 2) 2 = Ok (2 ^ 53)%Z.
Proof. vm_compute. auto. Qed.
