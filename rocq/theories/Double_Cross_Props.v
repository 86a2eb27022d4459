(** C116: the moving-average crossover in double precision. *)
From Coq Require Import Reals ZArith QArith Qreals Lra Lia List String.
From Verif Require Import Prelude PreludeFacts Num Series Feat_Model Feat_Spec Double_Model Double_Spec Double_Proofs
  Rounding_Model Rounding_Proofs Rounding_Arith_Model Rounding_Arith_Proofs Double_Vpin_Model Double_Vpin_Spec Double_Cross_Model Double_Cross_Proofs Double_Cross_Proofs2.
Import ListNotations.
Local Open Scope R_scope.
Local Notation length := List.length.

(** In exact arithmetic the running, compensated means give the crossover of C39. *)
Theorem C116_exact : forall fast slow fill name X, (0 < fast)%nat -> (0 < slow)%nat ->
  crossover_running Arith_R fast slow fill name X = ma_crossover fast slow fill name X.
Proof. exact c116_exact. Qed.
Print Assumptions C116_exact.

(** Prices in ticks of 2^e, at most B of them, and windows that are not too long: in doubles the crossover is that of exact arithmetic, for
    every series, missing prices and repeated timestamps included. *)
Theorem C116_ticks : forall e B fast slow fill name X (prices : list (option Z)),
  (-1000 <= e)%Z -> (0 < fast)%nat -> (0 < slow)%nat -> (0 <= B)%Z -> ((B + 1) * Z.of_nat fast * Z.of_nat slow < 2 ^ 52)%Z ->
  lookup name X = Some (map (in_double e) prices) -> (forall z, In (Some z) prices -> (Z.abs z <= B)%Z) ->
  crossover_running Arith_double fast slow fill name X = ma_crossover fast slow fill name X.
Proof. exact c116_crossover. Qed.
Print Assumptions C116_ticks.

(** In a flat market, with such prices, no side is ever taken. *)
Theorem C116_flat : forall e z fast slow fill name X (prices : list (option Z)),
  (-1000 <= e)%Z -> (0 < fast)%nat -> (0 < slow)%nat -> ((Z.abs z + 1) * Z.of_nat fast * Z.of_nat slow < 2 ^ 52)%Z ->
  lookup name X = Some (map (in_double e) prices) -> (forall p, In p prices -> p = None \/ p = Some z) ->
  crossover_running Arith_double fast slow fill name X = Ok (map (fun _ => Fin 0) (f_index X)).
Proof.
  intros e z fast slow fill name X prices He Hf Hs Hz Hl Hp. rewrite (C116_ticks e (Z.abs z) fast slow fill name X prices); auto; try lia.
  - apply (c116_flat_exact fast slow fill name X (IZR z * powerRZ 2 e) (map (in_double e) prices)); auto. apply Forall_forall.
    intros x Hx. apply in_map_iff in Hx as (p & <- & Hin). destruct (Hp p Hin) as [-> | ->]; [now left|now right].
  - intros y Hy. destruct (Hp _ Hy) as [?|[= ->]]; [discriminate|lia].
Qed.
Print Assumptions C116_flat.

(** The rolling means with rounded rational numbers are those in doubles: they can be run. *)
Theorem C116_executable : forall w l, (Z.of_nat (length l) <= 2 ^ 53)%Z ->
  map real (@kahan_mean Q Arith_rounded w l) = @kahan_mean R Arith_double w (map real l).
Proof. exact real_kahan_mean. Qed.
Print Assumptions C116_executable.

(** With a decimal price it does take sides in a flat market: the price is 101.3 in every bar, the windows are 10 and 20. *)
Definition flat_frame (p : Q) (n : nat) : frame :=
  {| f_index := map Z.of_nat (seq 0 n); f_cols := [("close"%string, map (fun _ => Fin (to_double (Q2R p))) (seq 0 n))] |}.
Definition flat_side (p : Q) (n fast slow : nat) : list Z * list Z :=
  let c := map (fun _ => Fin (rounded p)) (seq 0 n) in
  let f := @kahan_mean Q Arith_rounded fast c in let s := @kahan_mean Q Arith_rounded slow c in
  (up_rows (map Z.of_nat (seq 0 n)) f s, down_rows (map Z.of_nat (seq 0 n)) f s).
Lemma flat_run p n fast slow fill : (Z.of_nat n <= 2 ^ 53)%Z ->
  crossover_running Arith_double fast slow fill "close" (flat_frame p n) =
  let idx := map Z.of_nat (seq 0 n) in let side := map (fun _ => if fill then NaN else Fin 0) idx in
  Ok (fillna0 (ffill (loc_set idx (fst (flat_side p n fast slow)) (Fin 1) (loc_set idx (snd (flat_side p n fast slow)) (Fin (-1)) side)))).
Proof.
  intros H. unfold crossover_running.
  replace (column "close" (flat_frame p n)) with (Ok (map (fun _ : nat => Fin (to_double (Q2R p))) (seq 0 n))) by reflexivity. cbn [bind f_index flat_frame].
  replace (map (fun _ => Fin (to_double (Q2R p))) (seq 0 n)) with (map real (map (fun _ => Fin (rounded p)) (seq 0 n)))
    by (rewrite map_map; apply map_ext; intros; cbn [real]; now rewrite rounded_double).
  rewrite <- !C116_executable by (rewrite map_length, seq_length; exact H). rewrite up_real, down_real. reflexivity.
Qed.
Theorem C116_decimals_refuted : exists out, crossover_running Arith_double 10 20 false "close" (flat_frame (1013 # 10) 25) = Ok out /\
  nth_error out 22 = Some (Fin 1) /\ nth_error out 24 = Some (Fin (-1)) /\
  ma_crossover 10 20 false "close" (flat_frame (1013 # 10) 25) = Ok (map (fun _ => Fin 0) (seq 0 25)).
Proof.
  rewrite flat_run by lia. eexists. split; [cbv zeta; reflexivity|].
  assert (E : flat_side (1013 # 10) 25 10 20 = ([22], [24])%Z) by (vm_compute; reflexivity). rewrite E.
  split; [reflexivity|]. split; [reflexivity|].
  rewrite (c116_flat_exact 10 20 false "close" (flat_frame (1013 # 10) 25) (to_double (Q2R (1013 # 10))) (map (fun _ => Fin (to_double (Q2R (1013 # 10)))) (seq 0 25)));
    [cbn [f_index flat_frame]; now rewrite map_map|lia|lia|reflexivity|]. apply Forall_forall. intros x Hx. apply in_map_iff in Hx as (i & <- & _). now right.
Qed.
Print Assumptions C116_decimals_refuted.

(** A case that meets the hypotheses: prices in quarters, a missing bar, one crossing. *)
Definition quarters : list (option Z) := [Some 404; Some 404; None; Some 405; Some 405; Some 409; Some 401]%Z.
Definition quarters_frame : frame :=
  {| f_index := [1; 2; 3; 4; 5; 6; 7]%Z; f_cols := [("close"%string, map (in_double (-2)) quarters)] |}.
Example C116_case : crossover_running Arith_double 1 2 false "close" quarters_frame = ma_crossover 1 2 false "close" quarters_frame /\
  ma_crossover 1 2 false "close" quarters_frame = Ok [Fin 0; Fin 0; Fin 0; Fin 0; Fin 0; Fin 1; Fin (-1)].
Proof.
  split.
  - apply (C116_ticks (-2) 409 1 2 false "close" quarters_frame quarters); try lia; [reflexivity|].
    intros z Hz. repeat destruct Hz as [Hz|Hz]; try (injection Hz as <-; lia); try discriminate. destruct Hz.
  - unfold ma_crossover. replace (column "close" quarters_frame) with (Ok (map (in_double (-2)) quarters)) by reflexivity. cbn [bind f_index quarters_frame]. f_equal.
    assert (P : powerRZ 2 (-2) = / 4) by (change (powerRZ 2 (-2)) with (/ (2 * (2 * 1))); field).
    unfold rolling, quarters, in_double. rewrite P. cbn. unfold mean. cbn.
    unfold eleb. cbn.
    repeat (match goal with
            | |- context [Rlt_dec ?a ?b] => destruct (Rlt_dec a b)
            | |- context [Req_EM_T ?a ?b] => destruct (Req_EM_T a b)
            end; try (exfalso; lra); cbn); reflexivity.
Qed.
