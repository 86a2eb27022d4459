(** C12: the log-uniform distribution. *)
From Coq Require Import Reals Lra.
From Verif Require Import LogUniform_Model LogUniform_Proofs.
Open Scope R_scope.

(** 0 up to a, 1 from b on, strictly increasing in between, never outside [0, 1]. *)
Theorem C12_cdf : forall a b, 0 < a -> a < b ->
  (forall x, x <= a -> cdf a b x = 0) /\ (forall x, b <= x -> cdf a b x = 1) /\
  (forall x y, a <= x -> x < y -> y <= b -> cdf a b x < cdf a b y) /\
  (forall x, 0 <= cdf a b x <= 1).
Proof. exact cdf_facts. Qed.
Print Assumptions C12_cdf.

(** The interval from x to c*x has the same probability wherever it lies. *)
Theorem C12_scale_free : forall a b, 0 < a -> a < b -> forall c x y, 0 < c ->
  a <= x <= b -> a <= c * x <= b -> a <= y <= b -> a <= c * y <= b ->
  cdf a b (c * x) - cdf a b x = cdf a b (c * y) - cdf a b y.
Proof. exact cdf_scale_free. Qed.
Print Assumptions C12_scale_free.

(** The formula used inside the support already takes the values 0 and 1 at its ends, so the public distribution
    function does not jump there. *)
Theorem C12_no_jump : forall a b, 0 < a -> a < b -> raw_cdf a b a = 0 /\ raw_cdf a b b = 1.
Proof. exact (fun a b Ha Hab => conj (raw_cdf_a a b Ha) (raw_cdf_b a b Ha Hab)). Qed.
Print Assumptions C12_no_jump.

(** Without bounds the distribution is on [1, e], with the logarithm as distribution function; a given bound is used. *)
Theorem C12_default : forall x, 1 <= x <= exp 1 -> let (a, b) := log_uniform 1 None in cdf a b x = ln x.
Proof. exact cdf_default. Qed.
Print Assumptions C12_default.
Theorem C12_given_bounds : forall a b, 0 < a -> a < b -> let (lo, hi) := log_uniform a (Some b) in
  (forall x, cdf lo hi x = 0 <-> x <= a) /\ (forall x, cdf lo hi x = 1 <-> b <= x).
Proof. exact cdf_bounds. Qed.
Print Assumptions C12_given_bounds.

Example C12_case : 0 < 1 /\ 1 < 100 /\ 1 <= 2 <= 100 /\ 1 <= 10 * 2 <= 100 /\ 1 <= 7 <= 100 /\ 1 <= 10 * 7 <= 100.
Proof. lra. Qed.
