(** C114: concrete runs of the SADF test. *)
From Coq Require Import Reals Lra String.
From Verif Require Import Series OLS_Model OLS_Spec OLS_Proofs Break_Model Break_Spec OLS_TStat Break_Scale_Spec Break_Proofs4 Break_Cases
  Break_Scale_Proofs2.
Local Open Scope nat_scope.

Definition ex_fib : list (Z * R) := [(0, 1%R); (1, 1%R); (2, 2%R); (3, 3%R); (4, 5%R); (5, 8%R)]%Z.

Lemma fib_valid : valid "no_trend" 1. Proof. left. split; [reflexivity|lia]. Qed.
Lemma fib_exact : sse (X_of "no_trend" 1 false (vals ex_fib) 0 4) (Y_of "no_trend" 1 (vals ex_fib) 0 4) (fun j => match j with 0 => 1 | _ => -1 end)%R = 0%R.
Proof. unfold sse, resid, vals. cbn. lra. Qed.
Lemma fib_fails inv : inv_sound inv -> inv_complete 2 inv -> forall out, sadf_run inv "no_trend" 1 3 false 0 ex_fib <> Ok out.
Proof.
  intros Hs Hc out H. destruct (proj1 (c46_defined inv Hs "no_trend" 1 3 false 0 fib_valid ex_fib ltac:(cbn; lia) Hc) (ex_intro _ out H)) as (_ & _ & D).
  apply (D 0 4 ltac:(lia) ltac:(cbn; lia)). right. eexists. exact fib_exact.
Qed.

Definition ex_fib1 : list (Z * R) := [(0, 2%R); (1, 2%R); (2, 3%R); (3, 4%R); (4, 6%R); (5, 9%R)]%Z.
Lemma fib1 : rescale 1 1 ex_fib = ex_fib1.
Proof.
  assert (E : forall (x y : R) (z : Z) l l', x = y -> l = l' -> (z, x) :: l = (z, y) :: l') by (intros; now subst).
  unfold rescale, ex_fib, ex_fib1. cbn [map fst snd]. repeat (apply E; [lra|]). reflexivity.
Qed.

Lemma fib1_nondeg start stop : start + 3 <= stop -> 3 < stop <= 4 ->
  ~ degenerate (X_of "no_trend" 1 false (vals ex_fib1) start stop) (Y_of "no_trend" 1 (vals ex_fib1) start stop).
Proof.
  intros H1 H2. assert (stop = 4) as -> by lia. assert (start = 0 \/ start = 1) as [->| ->] by lia; intros [D|(w & D)].
  - destruct (det_inverse (X_of "no_trend" 1 false (vals ex_fib1) 0 4) eq_refl) as [N HN]; [|now apply (D N)].
    unfold vals. cbn. lra.
  - unfold sse, resid, vals in D. cbn in D. set (p := w 0) in *. set (q := w 1) in *.
    assert (forall z : R, 0 <= z * z)%R by (intros; apply Rle_0_sqr).
    apply (f_equal (fun z => z)) in D. pose proof (H (1 - 3 * p - q)%R). pose proof (H (2 - 4 * p - q)%R). pose proof (H (3 - 6 * p - 2 * q)%R).
    pose proof (H (1 - 2 * p)%R). nra.
  - destruct (det_inverse (X_of "no_trend" 1 false (vals ex_fib1) 1 4) eq_refl) as [N HN]; [|now apply (D N)].
    unfold vals. cbn. lra.
  - unfold sse, resid, vals in D. cbn in D. set (p := w 0) in *. set (q := w 1) in *.
    assert (forall z : R, 0 <= z * z)%R by (intros; apply Rle_0_sqr).
    pose proof (H (1 - 3 * p - q)%R). pose proof (H (2 - 4 * p - q)%R). pose proof (H (3 - 6 * p - 2 * q)%R). nra.
Qed.

Lemma fib1_runs inv : inv_sound inv -> inv_complete 2 inv -> exists v, sadf_run inv "no_trend" 1 3 false 0 ex_fib1 = Ok [(5%Z, Fin v)].
Proof.
  intros Hs Hc.
  destruct (proj2 (c46_defined inv Hs "no_trend" 1 3 false 0 fib_valid ex_fib1 ltac:(cbn; lia) Hc)) as [out H].
  { split; [cbn; lia|]. split; [discriminate|]. intros start stop A B. apply fib1_nondeg; auto. }
  destruct (c46 inv Hs "no_trend" 1 3 false 0 fib_valid ex_fib1 out ltac:(cbn; lia) H) as (_ & L & R1). cbn in L.
  destruct (R1 0 ltac:(cbn; lia)) as (v & Hn & _). exists v. rewrite H. destruct out as [|p [|? ?]]; try discriminate. cbn in Hn. now injection Hn as ->.
Qed.
Lemma c114_sadf_shift inv : inv_sound inv -> inv_complete 2 inv ->
  (forall out, sadf_run inv "no_trend" 1 3 false 0 ex_fib <> Ok out) /\
  exists v, sadf_run inv "no_trend" 1 3 false 0 (rescale 1 1 ex_fib) = Ok [(5%Z, Fin v)].
Proof. intros Hs Hc. split; [now apply fib_fails|]. rewrite fib1. now apply fib1_runs. Qed.
