(** Rolling means of multiples of a power of two are the exact means rounded once, and their comparisons are exact for moderate windows. *)
From Coq Require Import Reals ZArith Lra Lia List String.
From Flocq Require Import Core.
From Verif Require Import Prelude PreludeFacts Num Series DailyVol_Model Feat_Model Feat_Spec Feat_Proofs Feat_Proofs3 Feat_Proofs5 Feat_Proofs6 Roll_Model Roll_Proofs
  Double_Model Double_Spec Double_Proofs Double_Proofs2 Double_Vpin_Model Double_Vpin_Spec Double_Vpin_Proofs Double_Vpin_Proofs2 Double_Cross_Model.
Import ListNotations.
Local Open Scope R_scope.
Local Notation length := List.length.
Notation DA := Arith_double.

Lemma anat_double n : (Z.of_nat n <= 2 ^ 53)%Z -> @anat R DA n = INR n.
Proof.
  induction n as [|n IH]; intros H; [reflexivity|]. cbn [anat]. rewrite IH by lia. cbn [aadd a1 Arith_double].
  rewrite <- S_INR. apply to_double_id. rewrite INR_IZR_INZ. apply is_double_IZR. lia.
Qed.
Definition rnd (x : ext R) : ext R := match x with Fin a => Fin (to_double a) | _ => x end.

Section Mean.
  Variable e : Z.
  Hypothesis He : (-1074 <= e)%Z.
  Definition mrep (s : @kmean R) (v : list R) : Prop := krep e (fst s) v /\ snd s = negatives v /\ (Z.of_nat (length v) <= 2 ^ 53)%Z.
  Definition mok (v : list R) : Prop := small e v /\ (Z.of_nat (length v) <= 2 ^ 53)%Z.
  Lemma mrep_add s v x : mrep s v -> mok (v ++ [x]) -> mrep (@add_mean R DA s x) (v ++ [x]).
  Proof.
    intros (K & N & L) (O & L'). split; [|split]; cbn [add_mean fst snd]; [now apply krep_add| |exact L'].
    rewrite N. unfold negatives. rewrite filter_app, app_length. cbn. destruct (Rlt_dec x 0); cbn; lia.
  Qed.
  Lemma mrep_remove s v x : mrep s (x :: v) -> mrep (@remove_mean R DA s x) v.
  Proof.
    intros (K & N & L). split; [|split]; cbn [remove_mean fst snd]; [now apply krep_remove| |cbn [length] in L; lia].
    rewrite N. unfold negatives. cbn. destruct (Rlt_dec x 0); reflexivity.
  Qed.
  Lemma mean_out w s v : (0 < w)%nat -> mrep s v -> @calc_mean R DA w s = if Nat.leb w (length v) then rnd (agg_mean v) else NaN.
  Proof.
    intros Hw (K & N & L). destruct K as (zs & -> & _ & M & Q & _). unfold calc_mean. rewrite M, N, Q.
    rewrite map_length in *. destruct (Nat.leb_spec w (length zs)) as [W|W]; [|reflexivity].
    destruct (Nat.ltb_spec 0 (length zs)) as [P|P]; [|lia]. cbn [andb]. rewrite anat_double by exact L.
    assert (E : agg_mean (map (tick e) zs) = Fin (tick e (zsum zs) / INR (length zs))).
    { destruct zs as [|z zs]; [cbn in P; lia|]. unfold agg_mean. cbn [map]. change (tick e z :: map (tick e) zs) with (map (tick e) (z :: zs)).
      unfold mean. now rewrite lsum_tick, map_length. }
    rewrite E. cbn [rnd]. unfold adiv. cbn [amul ainv altb a0 Arith_double]. fold (Rdiv (tick e (zsum zs)) (INR (length zs))).
    set (x := tick e (zsum zs) / INR (length zs)). assert (I : 0 < / INR (length zs)) by (apply Rinv_0_lt_compat, lt_0_INR, P).
    destruct (Nat.eqb_spec (negatives (map (tick e) zs)) 0) as [Z|Z].
    - destruct (Rlt_dec (to_double x) 0) as [X|X]; cbn [andb].
      + exfalso. apply no_negatives in Z. rewrite lsum_tick in Z. pose proof (to_double_nonneg x). unfold x, Rdiv in *. nra.
      + destruct (Nat.eqb_spec (negatives (map (tick e) zs)) (length zs)); [lia|reflexivity].
    - cbn [andb]. destruct (Nat.eqb_spec (negatives (map (tick e) zs)) (length zs)) as [Y|Y]; [|reflexivity].
      destruct (Rlt_dec 0 (to_double x)) as [X|X]; [|reflexivity]. exfalso.
      assert (Y' : negatives (map (tick e) zs) = length (map (tick e) zs)) by (now rewrite map_length). apply all_negatives in Y'. rewrite lsum_tick in Y'.
      pose proof (to_double_nonpos x). unfold x, Rdiv in *. nra.
  Qed.
  Lemma mean_exact w l : (0 < w)%nat -> (Z.of_nat w <= 2 ^ 53)%Z ->
    (forall i, (i < length l)%nat -> small e (finite_vals (slice (S i - w) (S i) l))) -> @kahan_mean R DA w l = map rnd (rolling w agg_mean l).
  Proof.
    intros Hw Hw' Hok. unfold kahan_mean, rolling. rewrite map_map.
    rewrite (guarded_roll (@add_mean R DA) (@remove_mean R DA) _ _ mrep mok (fun v => if Nat.leb w (length v) then rnd (agg_mean v) else NaN)); auto.
    - apply map_ext. intros i. now destruct (Nat.leb _ _).
    - split; [|split; [reflexivity|cbn; lia]]. exists []. cbn. repeat split; try lia; symmetry; apply tick_0.
    - intros s v x. apply mrep_add.
    - intros s v x. apply mrep_remove.
    - intros s v. now apply mean_out.
    - intros i Hi. split; [now apply Hok|]. assert (length (finite_vals (slice (S i - w) (S i) l)) <= w)%nat; [|lia].
      unfold finite_vals. transitivity (length (slice (S i - w) (S i) l)).
      + clear. induction (slice _ _ _) as [|[]]; cbn; lia.
      + unfold slice. rewrite firstn_length, skipn_length. lia.
  Qed.
End Mean.

(** ** Comparing two means *)

Definition agree (x y : ext R) : Prop := eltb (rnd x) (rnd y) = eltb x y /\ eltb (rnd y) (rnd x) = eltb y x /\ eeqb (rnd x) (rnd y) = eeqb x y.
Lemma agree_real x y : (x < y <-> to_double x < to_double y) -> (y < x <-> to_double y < to_double x) -> agree (Fin x) (Fin y).
Proof.
  intros A B. unfold agree. cbn [rnd eltb eeqb altb aeqb Arith_R].
  destruct (Rlt_dec x y), (Rlt_dec y x), (Rlt_dec (to_double x) (to_double y)), (Rlt_dec (to_double y) (to_double x)); try tauto; try lra;
    destruct (Req_EM_T x y), (Req_EM_T (to_double x) (to_double y)); repeat split; try reflexivity; try lra.
Qed.
Lemma clear_lt d x y : x + 2 * d < y -> Rabs (to_double x - x) <= d -> Rabs (to_double y - y) <= d -> to_double x < to_double y.
Proof. intros H A B. apply Rabs_le_inv in A. apply Rabs_le_inv in B. lra. Qed.
Lemma powerRZ_split a b : powerRZ 2 (a + b) = powerRZ 2 a * powerRZ 2 b.
Proof. apply powerRZ_add. lra. Qed.

Section Compare.
  Variables (e B : Z) (p q : nat).
  Hypothesis He : (-1000 <= e)%Z.
  Hypothesis Hp : (0 < p)%nat.
  Hypothesis Hq : (0 < q)%nat.
  Hypothesis HB : (0 <= B)%Z.
  Hypothesis Hsize : ((B + 1) * Z.of_nat p * Z.of_nat q < 2 ^ 52)%Z.
  Let g := powerRZ 2 e.
  Lemma ratio_error F n : (0 < n)%nat -> (Z.abs F <= Z.of_nat n * B)%Z -> Rabs (to_double (tick e F / INR n) - tick e F / INR n) <= eps64 * (IZR B + 1) * g.
  Proof.
    intros Hn HF. eapply Rle_trans; [apply error_any|]. assert (G : 0 < g) by (apply powerRZ_lt; lra).
    assert (N : 0 < INR n) by (apply lt_0_INR, Hn).
    assert (T : tiny <= eps64 * g).
    { rewrite eps64_bpow. change (/ 2) with (bpow radix2 (-1)). unfold g. rewrite <- (bpow2 e). rewrite <- !bpow_plus. apply bpow_le. lia. }
    assert (X : Rabs (tick e F / INR n) <= IZR B * g).
    { unfold tick, Rdiv. fold g. rewrite !Rabs_mult, (Rabs_pos_eq g), (Rabs_pos_eq (/ INR n)) by (left; auto using Rinv_0_lt_compat).
      rewrite <- abs_IZR. apply IZR_le in HF. rewrite mult_IZR, <- INR_IZR_INZ in HF. apply Rmult_le_reg_r with (INR n); [exact N|].
      replace (IZR (Z.abs F) * g * / INR n * INR n) with (IZR (Z.abs F) * g) by (field; lra). nra. }
    pose proof eps64_pos. nra.
  Qed.
  Lemma ratio_lt F G m n : (m = p /\ n = q \/ m = q /\ n = p) -> (Z.abs F <= Z.of_nat m * B)%Z -> (Z.abs G <= Z.of_nat n * B)%Z ->
    (tick e F / INR m < tick e G / INR n <-> to_double (tick e F / INR m) < to_double (tick e G / INR n)).
  Proof.
    intros Hmn HF HG. assert (Hm : (0 < m)%nat) by (destruct Hmn as [[-> ->]|[-> ->]]; auto). assert (Hn : (0 < n)%nat) by (destruct Hmn as [[-> ->]|[-> ->]]; auto).
    assert (M : 0 < INR m) by (apply lt_0_INR, Hm). assert (N : 0 < INR n) by (apply lt_0_INR, Hn). assert (P : 0 < g) by (apply powerRZ_lt; lra).
    split.
    - intros H. apply (clear_lt (eps64 * (IZR B + 1) * g)); try (apply ratio_error; auto).
      assert (L : (F * Z.of_nat n + 1 <= G * Z.of_nat m)%Z).
      { apply Zlt_le_succ. apply lt_IZR. rewrite !mult_IZR, <- !INR_IZR_INZ. unfold tick in H. fold g in H.
        apply Rmult_lt_reg_r with (g * / INR m * / INR n); [apply Rmult_lt_0_compat; [apply Rmult_lt_0_compat|]; auto using Rinv_0_lt_compat|].
        replace (IZR F * INR n * (g * / INR m * / INR n)) with (IZR F * g / INR m) by (field; lra).
        replace (IZR G * INR m * (g * / INR m * / INR n)) with (IZR G * g / INR n) by (field; lra). exact H. }
      apply IZR_le in L. rewrite plus_IZR, !mult_IZR, <- !INR_IZR_INZ in L.
      assert (S : (IZR B + 1) * INR m * INR n < 4503599627370496).
      { change 4503599627370496 with (IZR (2 ^ 52)). rewrite !INR_IZR_INZ, <- plus_IZR, <- !mult_IZR. apply IZR_lt. destruct Hmn as [[-> ->]|[-> ->]]; lia. }
      apply Rmult_lt_reg_r with (INR m * INR n / g); [apply Rdiv_lt_0_compat; nra|]. unfold tick. fold g.
      replace ((IZR F * g / INR m + 2 * (eps64 * (IZR B + 1) * g)) * (INR m * INR n / g)) with (IZR F * INR n + 2 * eps64 * ((IZR B + 1) * INR m * INR n)) by (field; lra).
      replace (IZR G * g / INR n * (INR m * INR n / g)) with (IZR G * INR m) by (field; lra).
      unfold eps64. lra.
    - intros H. destruct (Rlt_le_dec (tick e F / INR m) (tick e G / INR n)) as [|L]; auto. apply to_double_le in L. lra.
  Qed.
End Compare.

Lemma rolling_grid e B w (l : list (option Z)) : (0 < w)%nat -> (forall z, In (Some z) l -> (Z.abs z <= B)%Z) ->
  Forall (fun x => x = NaN \/ exists F, x = Fin (tick e F / INR w) /\ (Z.abs F <= Z.of_nat w * B)%Z) (rolling w agg_mean (map (in_double e) l)).
Proof.
  intros Hw HB. apply Forall_forall. intros x Hx. unfold rolling in Hx. apply in_map_iff in Hx as (i & <- & Hi).
  rewrite slice_map. set (s := slice (S i - w) (S i) l).
  set (zs := flat_map (fun v => match v with Some z => [z] | None => [] end) s).
  assert (E : finite_vals (map (in_double e) s) = map (tick e) zs).
  { unfold zs. clear. induction s as [|[z|] s IH]; cbn; [reflexivity|f_equal; exact IH|exact IH]. }
  rewrite E, map_length. destruct (Nat.leb_spec w (length zs)) as [L|L]; [|now left]. right.
  assert (Ls : (length zs <= w)%nat).
  { transitivity (length s); [unfold zs; clear; induction s as [|[]]; cbn; lia|]. unfold s, slice. rewrite firstn_length, skipn_length. lia. }
  exists (zsum zs). split.
  - replace (agg_mean (map (tick e) zs)) with (Fin (mean (map (tick e) zs))) by (destruct zs; [cbn in L; lia|reflexivity]).
    unfold mean. rewrite lsum_tick, map_length. now replace (length zs) with w by lia.
  - replace w with (length zs) by lia. assert (A : forall z, In z zs -> (Z.abs z <= B)%Z).
    { intros z Hz. unfold zs in Hz. apply in_flat_map in Hz as ([y|] & Hy & Hz); cbn in Hz; [|destruct Hz]. destruct Hz as [->|[]].
      apply HB. unfold s, slice in Hy. apply in_firstn in Hy. rewrite <- (firstn_skipn (S i - w) l). apply in_or_app. now right. }
    clear - A. unfold zsum. induction zs as [|z zs IH]; cbn -[Z.abs Z.of_nat Z.mul]; [lia|].
    specialize (IH ltac:(intros; apply A; now right)). specialize (A z (or_introl eq_refl)). rewrite Nat2Z.inj_succ. lia.
Qed.
Lemma rolling_len {w agg l} : length (rolling w agg l) = length l.
Proof. unfold rolling. now rewrite map_length, seq_length. Qed.
Lemma means_agree e B p q l : (-1000 <= e)%Z -> (0 < p)%nat -> (0 < q)%nat -> (0 <= B)%Z -> ((B + 1) * Z.of_nat p * Z.of_nat q < 2 ^ 52)%Z ->
  (forall z, In (Some z) l -> (Z.abs z <= B)%Z) ->
  Forall2 agree (rolling p agg_mean (map (in_double e) l)) (rolling q agg_mean (map (in_double e) l)).
Proof.
  intros He Hp Hq HB Hs Hl. pose proof (rolling_grid e B p l Hp Hl) as Fp. pose proof (rolling_grid e B q l Hq Hl) as Fq.
  assert (L : length (rolling p agg_mean (map (in_double e) l)) = length (rolling q agg_mean (map (in_double e) l))) by now rewrite !rolling_len.
  revert Fp Fq L. generalize (rolling p agg_mean (map (in_double e) l)) (rolling q agg_mean (map (in_double e) l)). intros a.
  induction a as [|x a IH]; intros [|y b] Fp Fq L; try discriminate; constructor.
  - inversion_clear Fp as [|? ? X _]. inversion_clear Fq as [|? ? Y _]. destruct X as [-> |(F & -> & X)]; [now destruct y|].
    destruct Y as [-> |(G & -> & Y)]; [now cbv|]. apply agree_real.
    + apply (ratio_lt e B p q He Hp Hq Hs); auto.
    + apply (ratio_lt e B p q He Hp Hq Hs); auto.
  - inversion_clear Fp. inversion_clear Fq. apply IH; auto.
Qed.
Lemma shift_agree a b : Forall2 agree a b -> Forall2 agree (shift1 a) (shift1 b).
Proof.
  intros F. unfold shift1. assert (L : length a = length b) by (clear - F; induction F; cbn; congruence). rewrite L.
  apply forall2_firstn. constructor; [now cbv|exact F].
Qed.
Lemma shift_rnd a : shift1 (map rnd a) = map rnd (shift1 a).
Proof. unfold shift1. rewrite map_length, <- firstn_map. reflexivity. Qed.
Lemma zipw_agree (f : ext R -> ext R -> bool) a b : (forall x y, agree x y -> f (rnd x) (rnd y) = f x y) -> Forall2 agree a b ->
  zipw f (map rnd a) (map rnd b) = zipw f a b.
Proof. intros H F. unfold zipw. induction F as [|x y a b Hxy F IH]; [reflexivity|]. cbn. rewrite IH, H by exact Hxy. reflexivity. Qed.
Lemma up_agree idx a b : Forall2 agree a b -> up_cross_indices idx (map rnd a) (map rnd b) = up_cross_indices idx a b.
Proof.
  intros F. unfold up_cross_indices. rewrite !shift_rnd. rewrite !zipw_agree; auto using shift_agree.
  - intros x y (_ & A & _). exact A.
  - intros x y (A & _ & C). unfold eleb. now rewrite A, C.
Qed.
Lemma eeqb_sym x y : @eeqb R _ x y = eeqb y x.
Proof. destruct x as [x| | |], y as [y| | |]; try reflexivity. cbn. destruct (Req_EM_T x y), (Req_EM_T y x); congruence. Qed.
Lemma down_agree idx a b : Forall2 agree a b -> down_cross_indices idx (map rnd a) (map rnd b) = down_cross_indices idx a b.
Proof.
  intros F. unfold down_cross_indices. cbv zeta. rewrite !shift_rnd. rewrite !zipw_agree; auto using shift_agree.
  - intros x y (A & _). exact A.
  - intros x y (_ & A & C). unfold eleb. rewrite A. now rewrite (eeqb_sym (rnd y)), C, eeqb_sym.
Qed.
Lemma c116_crossover e B fast slow fill name X (prices : list (option Z)) :
  (-1000 <= e)%Z -> (0 < fast)%nat -> (0 < slow)%nat -> (0 <= B)%Z -> ((B + 1) * Z.of_nat fast * Z.of_nat slow < 2 ^ 52)%Z ->
  lookup name X = Some (map (in_double e) prices) -> (forall z, In (Some z) prices -> (Z.abs z <= B)%Z) ->
  crossover_running Arith_double fast slow fill name X = ma_crossover fast slow fill name X.
Proof.
  intros He Hf Hs HB Hsize Hl Hz. unfold crossover_running, ma_crossover, column. rewrite Hl. cbn [bind].
  assert (Sm : forall w, (0 < w)%nat -> (B * Z.of_nat w < 2 ^ 53)%Z -> forall i, small e (finite_vals (slice (S i - w) (S i) (map (in_double e) prices)))).
  { intros w Hw Hb i. rewrite slice_map. apply small_window. eapply Z.le_lt_trans; [|exact Hb].
    assert (Ls : (length (slice (S i - w) (S i) prices) <= w)%nat) by (unfold slice; rewrite firstn_length, skipn_length; lia).
    assert (A : forall z, In (Some z) (slice (S i - w) (S i) prices) -> (Z.abs z <= B)%Z).
    { intros z Hin. apply Hz. unfold slice in Hin. apply in_firstn in Hin. rewrite <- (firstn_skipn (S i - w) prices). apply in_or_app. now right. }
    transitivity (B * Z.of_nat (length (slice (S i - w) (S i) prices)))%Z; [|nia].
    clear - A HB. induction (slice _ _ _) as [|x l IH]; [cbn; lia|]. cbn -[Z.abs Z.of_nat Z.mul]. rewrite Nat2Z.inj_succ.
    specialize (IH ltac:(intros; apply A; now right)). destruct x as [z|]; [specialize (A z (or_introl eq_refl))|]; lia. }
  rewrite (mean_exact e ltac:(lia) fast), (mean_exact e ltac:(lia) slow); try (intros; apply Sm); auto; try nia.
  rewrite up_agree, down_agree; [reflexivity|..]; eapply means_agree; eauto.
Qed.
