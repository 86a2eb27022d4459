(** The CUSUM filter on prices that were rounded to doubles: the same events as long as no move comes too close to the threshold. *)
From Coq Require Import Reals ZArith QArith Qreals Lia Lra List.
From Flocq Require Import Core.
From Verif Require Import PreludeFacts Num Series Cusum_Model Cusum_Proofs Double_Model Double_Spec Double_Proofs Double_Proofs2.
Import ListNotations.
Local Open Scope R_scope.
Notation DA := Arith_double.

Lemma nearest_any x y : nearest x y -> Rabs (y - x) <= eps64 * Rabs x + tiny.
Proof.
  intros [_ H]. eapply Rle_trans; [apply (H (to_double x)), to_double_is|]. apply error_any.
Qed.

Section Exact.
  Variables (H : Q) (p : nat -> Q).
  Hypothesis HH : (0 <= H)%Q.
  Let d k := (p (S k) + - p k)%Q.
  Lemma accP_next k : accP H p (S k) = if upb H p (S k) then 0%Q else if altb 0%Q (accP H p k + d k)%Q then (accP H p k + d k)%Q else 0%Q.
  Proof.
    unfold accP, upb, d. cbn [acc]. destruct (acc H p k) as [[P N] f]. cbn [fst snd].
    destruct (altb _ (- H)%Q); [|destruct (altb H _)]; reflexivity.
  Qed.
  Lemma accN_next k : accN H p (S k) = if downb H p (S k) then 0%Q else if altb (accN H p k + d k)%Q 0%Q then (accN H p k + d k)%Q else 0%Q.
  Proof.
    unfold accN, downb, d. cbn [acc]. destruct (acc H p k) as [[P N] f]. cbn [fst snd].
    destruct (altb _ (- H)%Q); [|destruct (altb H _)]; reflexivity.
  Qed.
  Let P k := Q2R (accP H p k).
  Let N k := Q2R (accN H p k).
  Let D k := Q2R (p (S k)) - Q2R (p k).
  Lemma D_eq k : Q2R (d k) = D k.
  Proof. unfold d, D. rewrite Q2R_plus, Q2R_opp. reflexivity. Qed.
  Lemma P_next k : P (S k) = if upb H p (S k) then 0 else Rmax 0 (P k + D k).
  Proof.
    unfold P. rewrite accP_next. destruct (upb H p (S k)); [apply RMicromega.Q2R_0|].
    rewrite <- D_eq, <- Q2R_plus.
    destruct (altb _ _) eqn:E; [apply altb_Q_true, Qlt_Rlt in E|apply altb_Q_false, Qle_Rle in E]; rewrite RMicromega.Q2R_0 in *.
    - now rewrite Rmax_right by lra.
    - now rewrite Rmax_left by lra.
  Qed.
  Lemma N_next k : N (S k) = if downb H p (S k) then 0 else Rmin 0 (N k + D k).
  Proof.
    unfold N. rewrite accN_next. destruct (downb H p (S k)); [apply RMicromega.Q2R_0|].
    rewrite <- D_eq, <- Q2R_plus.
    destruct (altb _ _) eqn:E; [apply altb_Q_true, Qlt_Rlt in E|apply altb_Q_false, Qle_Rle in E]; rewrite RMicromega.Q2R_0 in *.
    - now rewrite Rmin_right by lra.
    - now rewrite Rmin_left by lra.
  Qed.
  Lemma up_iff k : upb H p (S k) = true <-> Q2R H < P k + D k.
  Proof.
    rewrite (fired H p HH). unfold P, D. rewrite <- Q2R_minus, <- Q2R_plus. split; [apply Qlt_Rlt|apply Rlt_Qlt].
  Qed.
  Lemma down_iff k : downb H p (S k) = true <-> N k + D k < - Q2R H.
  Proof.
    rewrite (fired_down H p HH). unfold N, D. rewrite <- Q2R_minus, <- Q2R_plus, <- Q2R_opp. split; [apply Qlt_Rlt|apply Rlt_Qlt].
  Qed.
  Lemma P_from k : exists i, (i <= k)%nat /\ P k + D k = Q2R (p (S k)) - Q2R (p i).
  Proof.
    destruct (acc_meaning H p HH k) as ((i & Hi & _ & E) & _). exists i. split; auto.
    apply Qeq_eqR in E. rewrite Q2R_minus in E. unfold P, D. lra.
  Qed.
  Lemma N_from k : exists i, (i <= k)%nat /\ N k + D k = Q2R (p (S k)) - Q2R (p i).
  Proof.
    destruct (acc_meaning H p HH k) as (_ & _ & (i & Hi & _ & E) & _). exists i. split; auto.
    apply Qeq_eqR in E. rewrite Q2R_minus in E. unfold N, D. lra.
  Qed.
End Exact.

Lemma step_shape (h : R) st t a b d : pos st = Fin a -> neg st = Fin b ->
  let A := Rmax 0 (to_double (a + d)) in let B := Rmin 0 (to_double (b + d)) in
  @cusum_step R DA h st t (Fin d) =
    if Rlt_dec B (- h) then {| pos := Fin A; neg := Fin 0; picked := picked st ++ [t] |}
    else if Rlt_dec h A then {| pos := Fin 0; neg := Fin B; picked := picked st ++ [t] |}
    else {| pos := Fin A; neg := Fin B; picked := picked st |}.
Proof.
  intros Ha Hb. cbv zeta. unfold cusum_step. cbv zeta. rewrite Ha, Hb.
  change (@a0 R DA) with 0. change (@eopp R DA (Fin h)) with (Fin (- h)).
  change (@eadd R DA (Fin a) (Fin d)) with (Fin (to_double (a + d))).
  change (@eadd R DA (Fin b) (Fin d)) with (Fin (to_double (b + d))).
  assert (@py_max R DA (Fin 0) (Fin (to_double (a + d))) = Fin (Rmax 0 (to_double (a + d)))) as ->.
  { unfold py_max. cbn -[to_double]. destruct (Rlt_dec _ _); [rewrite Rmax_right by lra|rewrite Rmax_left by lra]; reflexivity. }
  assert (@py_min R DA (Fin 0) (Fin (to_double (b + d))) = Fin (Rmin 0 (to_double (b + d)))) as ->.
  { unfold py_min. cbn -[to_double]. destruct (Rlt_dec _ _); [rewrite Rmin_right by lra|rewrite Rmin_left by lra]; reflexivity. }
  cbn -[to_double Rmax Rmin]. destruct (Rlt_dec _ (- h)); [reflexivity|]. destruct (Rlt_dec h _); reflexivity.
Qed.

Lemma max_lip x y e : Rabs (x - y) <= e -> Rabs (Rmax 0 x - Rmax 0 y) <= e.
Proof. intros H. apply Rabs_le_inv in H. apply Rabs_le. unfold Rmax. destruct (Rle_dec 0 x), (Rle_dec 0 y); lra. Qed.
Lemma min_lip x y e : Rabs (x - y) <= e -> Rabs (Rmin 0 x - Rmin 0 y) <= e.
Proof. intros H. apply Rabs_le_inv in H. apply Rabs_le. unfold Rmin. destruct (Rle_dec 0 x), (Rle_dec 0 y); lra. Qed.

Section Near.
  Variables (H : Q) (h M : R) (p : nat -> Q) (q : nat -> R) (n : nat).
  Let eps := / 1125899906842624 * (M + Q2R H).
  Hypothesis HM : powerRZ 2 (-1000) <= M.
  Hypothesis HH : (0 <= H)%Q.
  Hypothesis Hh : nearest (Q2R H) h.
  Hypothesis HQ : forall k, (k < n)%nat -> nearest (Q2R (p k)) (q k) /\ Rabs (Q2R (p k)) <= M.
  Hypothesis Hclear : forall i k, (i <= k < n)%nat -> INR n * eps < Rabs (Rabs (Q2R (p k) - Q2R (p i)) - Q2R H).

  Lemma tiny_M : tiny <= / 1000000000000000000000 * M.
  Proof.
    apply Rle_trans with (/ 1000000000000000000000 * powerRZ 2 (-1000)); [|apply Rmult_le_compat_l; [lra|exact HM]].
    unfold tiny. rewrite <- bpow2. replace (-1075)%Z with (-75 + -1000)%Z by lia. rewrite bpow_plus.
    apply Rmult_le_compat_r; [apply bpow_ge_0|]. change (bpow radix2 (-75)) with (/ 37778931862957161709568). lra.
  Qed.
  Lemma M_pos : 0 < M.
  Proof. eapply Rlt_le_trans; [|exact HM]. apply powerRZ_lt. lra. Qed.
  Lemma H_nonneg : 0 <= Q2R H.
  Proof. rewrite <- RMicromega.Q2R_0. now apply Qle_Rle. Qed.
  Lemma h_error : Rabs (h - Q2R H) <= / 9007199254740992 * Q2R H + / 1000000000000000000000 * M.
  Proof.
    pose proof (nearest_any _ _ Hh) as E. rewrite (Rabs_pos_eq (Q2R H)) in E by apply H_nonneg. pose proof tiny_M. unfold eps64 in E. lra.
  Qed.
  Lemma q_error k : (k < n)%nat -> Rabs (q k - Q2R (p k)) <= / 9000000000000000 * M.
  Proof.
    intros Hk. destruct (HQ k Hk) as [HN HB]. pose proof (nearest_any _ _ HN) as E. pose proof tiny_M. pose proof M_pos.
    unfold eps64 in E. pose proof (Rabs_pos (Q2R (p k))). lra.
  Qed.

  Definition near (k : nat) (st : cstate R) : Prop :=
    exists a b, pos st = Fin a /\ neg st = Fin b /\
      Rabs (a - Q2R (accP H p k)) <= INR k * eps /\ Rabs (b - Q2R (accN H p k)) <= INR k * eps.

  Lemma near_step k st t : (S k < n)%nat -> within_d h st -> near k st ->
    let st' := @cusum_step R DA h st t (@esub R DA (Fin (q (S k))) (Fin (q k))) in
    near (S k) st' /\ picked st' = picked st ++ (if upb H p (S k) || downb H p (S k) then [t] else []).
  Proof.
    intros Hk (a & b & Ea & Eb & Da & Db & Ba & Bb) (a' & b' & Ea' & Eb' & Na & Nb).
    rewrite Ea in Ea'. rewrite Eb in Eb'. injection Ea' as <-. injection Eb' as <-.
    change (@esub R DA (Fin (q (S k))) (Fin (q k))) with (Fin (to_double (q (S k) + - q k))).
    pose proof M_pos as PM. pose proof H_nonneg as PH. pose proof h_error as Eh. apply Rabs_le_inv in Eh.
    pose proof (q_error k ltac:(lia)) as E0. pose proof (q_error (S k) ltac:(lia)) as E1. apply Rabs_le_inv in E0, E1.
    destruct (HQ k ltac:(lia)) as [[D0 _] B0]. destruct (HQ (S k) ltac:(lia)) as [[D1 _] B1].
    apply Rabs_le_inv in B0, B1.
    pose proof (error_sum (q (S k)) (- q k) D1 (is_double_opp _ D0)) as Ed.
    set (D := Q2R (p (S k)) - Q2R (p k)) in *.
    set (d := to_double (q (S k) + - q k)) in *.
    assert (Hd : Rabs (q (S k) + - q k) <= 21 / 10 * M) by (apply Rabs_le; lra).
    assert (Ed' : Rabs (d - D) <= / 2000000000000000 * M).
    { unfold eps64 in Ed. apply Rabs_le_inv in Ed. apply Rabs_le. unfold D.
      assert (/ 9007199254740992 * Rabs (q (S k) + - q k) <= / 4200000000000000 * M) by lra. lra. }
    apply Rabs_le_inv in Ed'.
    assert (Dd : is_double d) by apply to_double_is.
    assert (Bd : - (21 / 10 * M) <= d <= 21 / 10 * M).
    { unfold D in *. lra. }
    assert (HS : INR (S k) * eps = INR k * eps + eps) by (rewrite S_INR; ring).
    assert (Heps : eps = / 1125899906842624 * (M + Q2R H)) by reflexivity.
    assert (HX : forall x X, is_double x -> - h <= x <= h -> Rabs (x - X) <= INR k * eps ->
      Rabs (to_double (x + d) - (X + D)) <= INR (S k) * eps).
    { intros x X Dx Bx Nx. pose proof (error_sum x d Dx Dd) as E.
      assert (Rabs (x + d) <= h + 21 / 10 * M) as EB by (apply Rabs_le; lra). unfold eps64 in E.
      assert (/ 9007199254740992 * Rabs (x + d) <= / 9007199254740992 * (h + 21 / 10 * M)) as EB' by lra.
      apply Rabs_le_inv in E, Nx. apply Rabs_le. rewrite HS, Heps. rewrite Heps in Nx. lra. }
    pose proof (HX a _ Da ltac:(lra) Na) as XP. pose proof (HX b _ Db ltac:(lra) Nb) as XN. clear HX.
    assert (Hn : INR (S k) * eps + eps <= INR n * eps).
    { assert (INR (S k) + 1 <= INR n) as L by (rewrite <- S_INR; apply le_INR; lia).
      assert (0 <= eps) by (rewrite Heps; lra). replace (INR (S k) * eps + eps) with ((INR (S k) + 1) * eps) by ring.
      now apply Rmult_le_compat_r. }
    set (delta := INR n * eps) in *.
    assert (Heps0 : 0 < eps) by (rewrite Heps; lra).
    assert (Hk0 : 0 <= INR (S k) * eps) by (apply Rmult_le_pos; [apply pos_INR|lra]).
    pose proof (Hclear k k ltac:(lia)) as C0. replace (Q2R (p k) - Q2R (p k)) with 0 in C0 by ring. rewrite Rabs_R0 in C0.
    replace (0 - Q2R H) with (- Q2R H) in C0 by ring. rewrite Rabs_Ropp, Rabs_pos_eq in C0 by exact PH.
    assert (CP : forall x, (exists i, (i <= k)%nat /\ x = Q2R (p (S k)) - Q2R (p i)) -> x < - (Q2R H + delta) \/ - (Q2R H - delta) < x < Q2R H - delta \/ Q2R H + delta < x).
    { intros x (i & Hi & ->). specialize (Hclear i (S k) ltac:(lia)). revert Hclear. unfold Rabs at 1. 
      destruct (Rcase_abs _) as [L|L]; unfold Rabs; destruct (Rcase_abs _); intros; lra. }
    assert (Eh' : - eps < h - Q2R H < eps) by (rewrite Heps; lra).
    pose proof (CP _ (P_from H p HH k)) as C1. pose proof (CP _ (N_from H p HH k)) as C2.
    pose proof (up_iff H p HH k) as U. pose proof (down_iff H p HH k) as V.
    pose proof (P_next H p k) as PP. pose proof (N_next H p k) as NN.
    cbv beta in C1, C2, U, V, PP, NN. fold D in C1, C2, U, V, PP, NN.
    pose proof (max_lip _ _ _ XP) as LP. pose proof (min_lip _ _ _ XN) as LN.
    cbv zeta. rewrite (step_shape h st t a b d Ea Eb). cbv zeta.
    set (A := Rmax 0 (to_double (a + d))) in *. set (B := Rmin 0 (to_double (b + d))) in *.
    set (A' := Rmax 0 (Q2R (accP H p k) + D)) in *. set (B' := Rmin 0 (Q2R (accN H p k) + D)) in *.
    assert (upd : Q2R H + delta < A' /\ upb H p (S k) = true \/ A' < Q2R H - delta /\ upb H p (S k) = false).
    { unfold A', Rmax. destruct C1 as [C1|[C1|C1]]; destruct (Rle_dec 0 _); try lra.
      all: try (right; split; [lra|]; destruct (upb H p (S k)); [|reflexivity]; pose proof (proj1 U eq_refl); lra).
      left. split; [lra|]. apply U. lra. }
    assert (dnd : B' < - (Q2R H + delta) /\ downb H p (S k) = true \/ - (Q2R H - delta) < B' /\ downb H p (S k) = false).
    { unfold B', Rmin. destruct C2 as [C2|[C2|C2]]; destruct (Rle_dec 0 _); try lra.
      all: try (right; split; [lra|]; destruct (downb H p (S k)); [|reflexivity]; pose proof (proj1 V eq_refl); lra).
      left. split; [lra|]. apply V. lra. }
    pose proof (not_both H p (S k)) as NB.
    pose proof (Rabs_le_inv _ _ LP) as LP'. pose proof (Rabs_le_inv _ _ LN) as LN'.
    assert (Z0 : Rabs (0 - 0) <= INR (S k) * eps) by (rewrite Rminus_0_r, Rabs_R0; exact Hk0).
    destruct upd as [[u1 u2]|[u1 u2]], dnd as [[v1 v2]|[v1 v2]]; rewrite u2, v2 in *; cbn [orb andb] in *; try discriminate;
      (destruct (Rlt_dec B (- h)); [try (exfalso; lra)|try (exfalso; lra); destruct (Rlt_dec h A); try (exfalso; lra)]);
      (split; [eexists _, _; split; [reflexivity|split; [reflexivity|rewrite PP, NN; split; assumption]]|cbn; rewrite ?app_nil_r; reflexivity]).
  Qed.
End Near.

Lemma near_run H h M (X : list (Z * Q)) (q : nat -> R) :
  powerRZ 2 (-1000) <= M -> (0 <= H)%Q -> nearest (Q2R H) h ->
  let ps := map snd X in let n := length X in
  (forall k, (k < n)%nat -> nearest (Q2R (at_ ps k)) (q k) /\ Rabs (Q2R (at_ ps k)) <= M) ->
  (forall i k, (i <= k < n)%nat ->
     INR n * (/ 1125899906842624 * (M + Q2R H)) < Rabs (Rabs (Q2R (at_ ps k) - Q2R (at_ ps i)) - Q2R H)) ->
  forall (rest : list Z) k st, (k + length rest < n)%nat ->
  within_d h st -> near H M (at_ ps) k st ->
  picked (@run R DA h (combine rest (@diff_from R DA (Fin (q k)) (map (fun j => Fin (q j)) (seq (S k) (length rest))))) st) =
  picked st ++ flat_map (fun jt => if upb H (at_ ps) (fst jt) || downb H (at_ ps) (fst jt) then [snd jt] else [])
     (combine (seq (S k) (length rest)) rest).
Proof.
  intros HM HH Hh ps n HQ HC. induction rest as [|t rest IH]; intros k st Hk W HS.
  - cbn. now rewrite app_nil_r.
  - cbn [length] in Hk. cbn [map fst snd diff_from combine length seq flat_map run fold_left].
    destruct (near_step H h M (at_ ps) q n HM HH Hh HQ HC k st t ltac:(lia) W HS) as [H1 H2].
    assert (0 <= h) as Hh0 by (destruct W as (x & y & W); lra).
    pose proof (proj1 (step_d h st t (@esub R DA (Fin (q (S k))) (Fin (q k))) Hh0 W)) as W'.
    specialize (IH (S k) _ ltac:(lia) W' H1). unfold run in IH. rewrite IH, H2, app_assoc. reflexivity.
Qed.

Lemma seq_list {T} (l : list T) (f : nat -> T) : forall s, (forall k, (k < length l)%nat -> nth_error l k = Some (f (s + k)%nat)) -> l = map f (seq s (length l)).
Proof.
  induction l as [|x l IH]; intros s Hs; auto. cbn. f_equal.
  - specialize (Hs 0%nat ltac:(cbn; lia)). cbn in Hs. rewrite Nat.add_0_r in Hs. congruence.
  - apply IH. intros k Hk. specialize (Hs (S k) ltac:(cbn; lia)). cbn in Hs. now replace (S s + k)%nat with (s + S k)%nat by lia.
Qed.

Lemma c109_same M H h (X : list (Z * Q)) (Y : list (Z * R)) :
  powerRZ 2 (-1000) <= M -> (0 <= H)%Q -> NoDup (map fst X) -> nearest (Q2R H) h ->
  Forall2 (fun x y => fst y = fst x /\ nearest (Q2R (snd x)) (snd y)) X Y ->
  (forall t r, In (t, r) X -> Rabs (Q2R r) <= M) ->
  (forall i k x y, (i <= k)%nat -> nth_error X i = Some x -> nth_error X k = Some y ->
     INR (length X) * (M + Q2R H) / 2 ^ 50 < Rabs (Rabs (Q2R (snd y) - Q2R (snd x)) - Q2R H)) ->
  @cusum_transform R DA h (map (fun y => (fst y, Fin (snd y))) Y) = cusum_transform H (map (fun x => (fst x, Fin (snd x))) X).
Proof.
  intros HM HH HN Hh HF HB HC.
  assert (E1 : map fst Y = map fst X) by (clear - HF; induction HF as [|x y X Y [E _] _ IH]; cbn; congruence).
  assert (El : length Y = length X) by (rewrite <- (map_length fst Y), E1; apply map_length).
  assert (NX : NoDup (map fst (map (fun x : Z * Q => (fst x, Fin (snd x))) X))) by (rewrite map_map; exact HN).
  assert (NY : NoDup (map fst (map (fun x : Z * R => (fst x, Fin (snd x))) Y))) by (rewrite map_map; change (NoDup (map fst Y)); rewrite E1; exact HN).
  unfold cusum_transform. rewrite (@loop_nodup R DA), (@loop_nodup Q _) by assumption. cbn [bind]. f_equal.
  set (ps := map snd X). set (q := fun k => nth k (map snd Y) 0).
  assert (Hget : forall k, (k < length X)%nat -> exists x y, nth_error X k = Some x /\ nth_error Y k = Some y /\ at_ ps k = snd x /\ q k = snd y /\
     fst y = fst x /\ nearest (Q2R (snd x)) (snd y)).
  { intros k Hk. destruct (nth_error X k) as [x|] eqn:Ex; [|apply nth_error_None in Ex; lia].
    destruct (nth_error Y k) as [y|] eqn:Ey; [|apply nth_error_None in Ey; lia]. exists x, y. split; auto. split; auto.
    assert (nth_error (map snd X) k = Some (snd x)) as E2 by (rewrite nth_error_map, Ex; reflexivity).
    assert (nth_error (map snd Y) k = Some (snd y)) as E3 by (rewrite nth_error_map, Ey; reflexivity).
    split; [now apply nth_error_nth|]. split; [now apply nth_error_nth|].
    clear - HF Ex Ey. revert k Ex Ey. induction HF; intros [|k] Ex Ey; try discriminate; cbn in *; [|eauto]. injection Ex as <-. injection Ey as <-. assumption. }
  assert (HQ : forall k, (k < length X)%nat -> nearest (Q2R (at_ ps k)) (q k) /\ Rabs (Q2R (at_ ps k)) <= M).
  { intros k Hk. destruct (Hget k Hk) as (x & y & Ex & Ey & -> & -> & _ & HNr). split; auto. apply nth_error_In in Ex. destruct x. eapply HB; eauto. }
  assert (HC' : forall i k, (i <= k < length X)%nat ->
     INR (length X) * (/ 1125899906842624 * (M + Q2R H)) < Rabs (Rabs (Q2R (at_ ps k) - Q2R (at_ ps i)) - Q2R H)).
  { intros i k Hk. destruct (Hget k ltac:(lia)) as (x & _ & Ex & _ & -> & _). destruct (Hget i ltac:(lia)) as (y & _ & Ey & _ & -> & _).
    specialize (HC i k y x ltac:(lia) Ey Ex). rewrite (pow_IZR 2 50) in HC. change (2 ^ Z.of_nat 50)%Z with 1125899906842624%Z in HC.
    replace (INR (length X) * (/ 1125899906842624 * (M + Q2R H))) with (INR (length X) * (M + Q2R H) / 1125899906842624) by field. exact HC. }
  destruct X as [|[t0 r0] X]; [destruct Y; [reflexivity|discriminate]|]. destruct Y as [|[t0' q0] Y]; [discriminate|].
  cbn [map steps fst snd].
  assert (h0 : 0 <= h) by (destruct Hh as [Dh Hh]; destruct (Rle_dec 0 h); auto; exfalso;
    pose proof (Hh 0 is_double_0) as L; pose proof (H_nonneg H HH); unfold Rabs in L; destruct (Rcase_abs _), (Rcase_abs _); lra).
  assert (W0 : within_d h (@init R DA)) by (exists 0, 0; cbn; pose proof is_double_0; repeat split; auto; lra).
  assert (N0 : near H M (at_ ps) 0 (@init R DA)).
  { exists 0, 0. split; [reflexivity|]. split; [reflexivity|].
    change (accP H (at_ ps) 0) with 0%Q. change (accN H (at_ ps) 0) with 0%Q. rewrite RMicromega.Q2R_0, Rminus_0_r, Rabs_R0. cbn [INR]. lra. }
  pose proof (near_run H h M _ q HM HH Hh HQ HC' (map fst X) 0%nat _ ltac:(cbn; rewrite map_length; lia) W0 N0) as RD.
  fold ps in RD.
  pose proof (run_follows H ps X 0%nat (@init Q _) eq_refl ltac:(cbn; lia) eq_refl eq_refl) as RQ.
  cbn [at_ ps map nth] in RQ.
  transitivity (picked (@run R DA h (combine (map fst X) (@diff_from R DA (Fin (q 0%nat)) (map (fun j => Fin (q j)) (seq 1 (length (map fst X)))))) (@init R DA))).
  - cbn in E1, El. injection E1 as _ E1. rewrite !map_map. cbn [fst snd]. change (map (fun x : Z * R => fst x) Y) with (map fst Y). rewrite E1. do 4 f_equal.
    rewrite map_length. assert (length X = length (map (fun x => @Fin R (snd x)) Y)) as -> by (rewrite map_length; lia).
    apply seq_list. intros k Hk. rewrite map_length in Hk. rewrite nth_error_map.
    destruct (Hget (S k) ltac:(cbn; lia)) as (x & y & _ & Ey & _ & Eq & _). cbn in Ey. rewrite Ey. cbn [option_map]. do 2 f_equal. symmetry. exact Eq.
  - rewrite RD. rewrite !map_map. cbn [fst snd]. change (map (fun x : Z * Q => fst x) X) with (map fst X). rewrite map_length.
    cbn [snd] in RQ. rewrite RQ. reflexivity.
Qed.
