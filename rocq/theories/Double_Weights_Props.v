(** C111: the time-decay weights in double precision. *)
From Coq Require Import Reals ZArith QArith Qreals List Permutation Lra Lia.
From Verif Require Import Prelude Num Boot_Spec Boot_Model Weights_Spec Weights_Model Double_Model Double_Spec Double_Weights_Model
  Rounding_Model Rounding_Arith_Model Double_Weights_Proofs3.
Import ListNotations.
Local Open Scope R_scope.

(** The weights as the machine computes them, for up to 2^25 labels and a decay parameter c that is a double with -1 < c <= 1
    (1 + c at least 2^-52): one weight per label, sorted by time; none is negative or above 1, not even by a rounding; later labels
    never weigh less; the newest label weighs exactly 1; for c >= 0 every weight is positive, for c = 1 every weight is exactly 1.
    The distance to the exact weights is at most 2^-23, divided by 1 + c if c is negative. *)
Theorem C111_weights : forall c samples out, is_double (Q2R c) -> / 2 ^ 52 <= 1 + Q2R c <= 2 ->
  (forall s e, In (s, e) samples -> (s <= e)%Z) -> (Z.of_nat (length samples) <= 2 ^ 25)%Z ->
  decay_transform_double (Q2R c) (map (fun s => (fst s, Some (snd s))) samples) = Ok out ->
  exists us, average_uniqueness_transform (map (fun s => (fst s, Some (snd s))) samples) = Ok (map (fun r => (fst r, Some (snd r))) us) /\
  increasingZ (map fst out) /\ Permutation (map fst out) (map fst samples) /\
  (forall t w, In (t, w) out -> exists q, w = Fin q /\ is_double q /\ 0 <= q <= 1 /\
     ((0 <= c)%Q -> 0 < q) /\ ((c == 1)%Q -> q = 1) /\ ((forall t' w', In (t', w') out -> (t' <= t)%Z) -> q = 1) /\
     Rabs (q - Q2R (decayed c (share us t))) * Rmin 1 (1 + Q2R c) <= / 2 ^ 23) /\
  (forall t q t' q', In (t, Fin q) out -> In (t', Fin q') out -> (t <= t')%Z -> q <= q').
Proof.
  intros c samples out Dc Hc Ho Hn. rewrite (pow_IZR 2 52) in Hc. change (IZR (2 ^ Z.of_nat 52)) with 4503599627370496 in Hc.
  apply c111_weights; auto. lra.
Qed.
Print Assumptions C111_weights.

(** Rounding never makes the call fail, nor succeed: the outcome is the one of exact arithmetic, with the same error. *)
Theorem C111_succeeds : forall c samples, is_double (Q2R c) -> / 2 ^ 52 <= 1 + Q2R c <= 2 ->
  (forall s e, In (s, e) samples -> (s <= e)%Z) -> (Z.of_nat (length samples) <= 2 ^ 25)%Z ->
  match decay_transform c (map (fun s => (fst s, Some (snd s))) samples) with
  | Ok _ => exists out, decay_transform_double (Q2R c) (map (fun s => (fst s, Some (snd s))) samples) = Ok out
  | Err e => decay_transform_double (Q2R c) (map (fun s => (fst s, Some (snd s))) samples) = Err e
  end.
Proof.
  intros c samples Dc Hc Ho Hn. rewrite (pow_IZR 2 52) in Hc. change (IZR (2 ^ Z.of_nat 52)) with 4503599627370496 in Hc.
  apply c111_succeeds; auto. lra.
Qed.
Print Assumptions C111_succeeds.

(** A table that meets the hypotheses: three labels, two of which overlap. *)
Definition ex_labels : list (Z * Z) := [(50, 50); (10, 30); (20, 40)]%Z.
Example C111_case : is_double (Q2R (1 # 2)) /\ / 2 ^ 52 <= 1 + Q2R (1 # 2) <= 2 /\ (forall s e, In (s, e) ex_labels -> (s <= e)%Z) /\
  (Z.of_nat (length ex_labels) <= 2 ^ 25)%Z /\
  exists out, decay_transform_double (Q2R (1 # 2)) (map (fun s => (fst s, Some (snd s))) ex_labels) = Ok out /\ map fst out = [10; 20; 50]%Z.
Proof.
  assert (D : is_double (Q2R (1 # 2))) by (exists 1%Z, (-1)%Z; split; [unfold Q2R; change (powerRZ 2 (-1)) with (/ (2 * 1)); cbn [Qnum Qden]; lra|split; lia]).
  assert (B : / 2 ^ 52 <= 1 + Q2R (1 # 2) <= 2).
  { rewrite (pow_IZR 2 52). change (IZR (2 ^ Z.of_nat 52)) with 4503599627370496. unfold Q2R. cbn. lra. }
  assert (O : forall s e, In (s, e) ex_labels -> (s <= e)%Z) by (intros s e [[= <- <-]|[[= <- <-]|[[= <- <-]|[]]]]; lia).
  assert (N : (Z.of_nat (length ex_labels) <= 2 ^ 25)%Z) by (vm_compute; discriminate).
  split; [exact D|split; [exact B|split; [exact O|split; [exact N|]]]].
  pose proof (C111_succeeds (1 # 2) ex_labels D B O N) as H.
  destruct (decay_transform (1 # 2) (map (fun s => (fst s, Some (snd s))) ex_labels)) eqn:E; [|vm_compute in E; discriminate].
  destruct H as (out & Hout). exists out. split; auto.
  destruct (C111_weights (1 # 2) ex_labels out D B O N Hout) as (us & _ & Hi & Hp & _).
  assert (forall l, Permutation l [50; 10; 20]%Z -> increasingZ l -> l = [10; 20; 50]%Z) as Sort; [|now apply Sort].
  clear. intros l Hp Hi. pose proof (Permutation_length Hp) as HL. destruct l as [|a [|b [|d [|]]]]; try discriminate.
  unfold increasingZ in Hi. inversion Hi as [|? ? H1 F1]; subst. inversion H1 as [|? ? H2 F2]; subst. inversion F1 as [|? ? G1 F3]; subst. inversion F3; subst. inversion F2; subst.
  assert (forall x, In x [50; 10; 20]%Z -> In x [a; b; d]) as I by (intros x Hx; eapply Permutation_in; [symmetry; exact Hp|exact Hx]).
  pose proof (I 50%Z ltac:(cbn; auto)) as I1. pose proof (I 10%Z ltac:(cbn; auto)) as I2. pose proof (I 20%Z ltac:(cbn; auto)) as I3. cbn in *.
  assert (a = 10 /\ b = 20 /\ d = 50)%Z as (-> & -> & ->) by lia. reflexivity.
Qed.

(** The roundings are not vacuous. The lines 131-138 run on doubles by computation: for c = 1/10 the oldest of the two labels below
    gets a weight that differs from the exact one, the newest gets exactly 1. *)
Example C111_rounded_case :
  let c := rounded (1 # 10) in
  match @decay_weights Q Arith_rounded c [Fin (rounded (1 # 3)); Fin (rounded (1 # 3))], @decay_weights Q Arith_Q c [Fin (rounded (1 # 3)); Fin (rounded (1 # 3))] with
  | Ok [Fin a; Fin b], Ok [Fin a'; Fin b'] => (b == 1)%Q /\ ~ (a == a')%Q
  | _, _ => False
  end.
Proof. vm_compute. split; [reflexivity|discriminate]. Qed.

(** A decay above 1 is rejected before anything is computed. *)
Theorem C111_rejected : forall c X, 1 < c -> decay_transform_double c X = Err AssertionError.
Proof. intros c X H. unfold decay_transform_double. now destruct (Rlt_dec 1 c). Qed.
Print Assumptions C111_rejected.
