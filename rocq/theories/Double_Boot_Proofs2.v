(** Kahan's sum and the draw from cumulative sums. *)
From Coq Require Import Reals ZArith Lia Lra List Permutation Psatz Sorted.
From Flocq Require Import Core.
From Verif Require Import Prelude Double_Model Double_Spec Double_Proofs Double_Proofs2 Double_Boot_Model Double_Boot_Proofs.
Import ListNotations.
Local Open Scope R_scope.

(** ** Kahan's sum *)
Lemma error_diff x y : is_double x -> is_double y -> Rabs (to_double (x - y) - (x - y)) <= eps64 * Rabs (x - y).
Proof. intros Dx Dy. apply (error_sum x (- y) Dx (is_double_opp y Dy)). Qed.

Lemma kahan_step_error s c x S k : is_double s -> is_double c -> is_double x -> 0 <= x -> 0 <= S -> S + x <= 5 / 4 ->
  0 <= k <= 4194304 -> Rabs (s - S) <= 16 * k * eps64 -> Rabs c <= 4 * eps64 ->
  let '(s', c') := kahan_step (s, c) x in
  is_double s' /\ is_double c' /\ Rabs (s' - (S + x)) <= 16 * (k + 1) * eps64 /\ Rabs c' <= 4 * eps64.
Proof.
  intros Ds Dc Dx Px PS Hb Hk Hs Hc. unfold kahan_step. cbv beta iota zeta.
  set (y := to_double (x - c)). set (t := to_double (s + y)). set (z := to_double (t - s)).
  assert (Dy : is_double y) by apply to_double_is. assert (Dt : is_double t) by apply to_double_is. assert (Dz : is_double z) by apply to_double_is.
  pose proof (error_diff x c Dx Dc) as Ey. pose proof (error_sum s y Ds Dy) as Et.
  pose proof (error_diff t s Dt Ds) as Ez. pose proof (error_diff z y Dz Dy) as Ec. fold y in Ey. fold t in Et. fold z in Ez.
  split; [auto|]. split; [apply to_double_is|].
  pose proof eps64_pos as HE.
  assert (H16 : 0 <= 16 * k * eps64 <= / 100000000).
  { split; [apply Rmult_le_pos; lra|]. apply Rle_trans with (16 * 4194304 * eps64); [apply Rmult_le_compat_r; lra|]. unfold eps64. lra. }
  apply Rabs_le_inv in Hs, Hc.
  assert (B1 : Rabs (x - c) <= 13 / 10) by (apply Rabs_le; lra).
  assert (B1' : eps64 * Rabs (x - c) <= eps64 * (13 / 10)) by (apply Rmult_le_compat_l; lra).
  assert (E1 : Rabs (y - (x - c)) <= eps64 * (13 / 10)) by (eapply Rle_trans; [exact Ey|exact B1']). apply Rabs_le_inv in E1.
  assert (B2 : Rabs (s + y) <= 26 / 10) by (apply Rabs_le; apply Rabs_le_inv in B1; lra).
  assert (B2' : eps64 * Rabs (s + y) <= eps64 * (26 / 10)) by (apply Rmult_le_compat_l; lra).
  assert (E2 : Rabs (t - (s + y)) <= eps64 * (26 / 10)) by (eapply Rle_trans; [exact Et|exact B2']). apply Rabs_le_inv in E2.
  assert (B3 : Rabs (t - s) <= 132 / 100) by (apply Rabs_le; apply Rabs_le_inv in B1; lra).
  assert (B3' : eps64 * Rabs (t - s) <= eps64 * (132 / 100)) by (apply Rmult_le_compat_l; lra).
  assert (E3 : Rabs (z - (t - s)) <= eps64 * (132 / 100)) by (eapply Rle_trans; [exact Ez|exact B3']). apply Rabs_le_inv in E3.
  assert (B4 : Rabs (z - y) <= eps64 * (392 / 100)) by (apply Rabs_le; lra).
  assert (B4' : eps64 * Rabs (z - y) <= eps64 * (/ 100)).
  { apply Rmult_le_compat_l; [lra|]. eapply Rle_trans; [exact B4|]. lra. }
  assert (E4 : Rabs (to_double (z - y) - (z - y)) <= eps64 * (/ 100)) by (eapply Rle_trans; [exact Ec|exact B4']). apply Rabs_le_inv in E4, B4.
  split; apply Rabs_le; lra.
Qed.

Lemma kahan_fold r : forall s c S k, is_double s -> is_double c -> 0 <= S -> Forall is_double r -> Forall (Rle 0) r ->
  S + rsum r <= 5 / 4 -> 0 <= k -> k + INR (length r) <= 4194304 -> Rabs (s - S) <= 16 * k * eps64 -> Rabs c <= 4 * eps64 ->
  Rabs (fst (fold_left kahan_step r (s, c)) - (S + rsum r)) <= 16 * (k + INR (length r)) * eps64.
Proof.
  induction r as [|x r IH]; intros s c S k Ds Dc PS D N Hb Pk Hk Hs Hc.
  - cbn. rewrite !Rplus_0_r. exact Hs.
  - inversion D as [|? ? Dx Dr]; inversion N as [|? ? Px Pr]; subst. cbn [rsum length] in *. rewrite S_INR in *. cbn [fold_left].
    pose proof (rsum_nonneg r Pr). pose proof (pos_INR (length r)).
    pose proof (kahan_step_error s c x S k Ds Dc Dx Px PS ltac:(lra) ltac:(lra) Hs Hc) as K.
    destruct (kahan_step (s, c) x) as [s' c']. destruct K as (Ds' & Dc' & Hs' & Hc').
    replace (S + (x + rsum r)) with ((S + x) + rsum r) by ring. replace (k + (INR (length r) + 1)) with ((k + 1) + INR (length r)) by ring.
    apply IH; auto; lra.
Qed.
Lemma kahan_error l : Forall is_double l -> Forall (Rle 0) l -> rsum l <= 5 / 4 -> INR (length l) <= 4194304 ->
  Rabs (kahan_sum l - rsum l) <= 16 * INR (length l) * eps64.
Proof.
  intros D N Hb Hl. pose proof eps64_pos. destruct l as [|x r]; [cbn; rewrite Rminus_0_r, Rabs_R0; lra|].
  inversion D as [|? ? Dx Dr]; inversion N as [|? ? Px Pr]; subst. cbn [kahan_sum rsum length] in *. rewrite S_INR in *.
  pose proof (rsum_nonneg r Pr). replace (INR (length r) + 1) with (1 + INR (length r)) by ring.
  apply (kahan_fold r x 0 x 1); auto; try lra.
  - apply is_double_0.
  - rewrite Rminus_diag_eq, Rabs_R0 by auto. lra.
  - rewrite Rabs_R0. lra.
Qed.

Lemma two26 : / 2 ^ 26 = / 67108864.
Proof. rewrite (pow_IZR 2 26). reflexivity. Qed.
Lemma two26_double : is_double (/ 2 ^ 26).
Proof. exists 1%Z, (-26)%Z. split; [|split; lia]. rewrite Rmult_1_l. cbn. reflexivity. Qed.

(** ** Cumulative sums *)
Lemma cumsum_added r : forall s pre, added pre s -> forall k c, nth_error (cumsum_from s r) k = Some c -> added (pre ++ firstn (S k) r) c.
Proof.
  induction r as [|x r IH]; intros s pre HA k c Hk; [destruct k; discriminate|].
  assert (HA' : added (pre ++ [x]) (to_double (s + x))).
  { eapply added_two; [reflexivity|exact HA|apply added_one|]. apply to_double_nearest. }
  destruct k as [|k]; cbn -[to_double] in Hk.
  - injection Hk as <-. cbn. exact HA'.
  - change (added (pre ++ x :: firstn (S k) r) c). replace (pre ++ x :: firstn (S k) r) with ((pre ++ [x]) ++ firstn (S k) r) by (rewrite <- app_assoc; reflexivity).
    eapply IH; eauto.
Qed.
Definition cums (p : list R) : list R := match p with [] => [] | x :: r => x :: cumsum_from x r end.
Lemma cums_added p k c : nth_error (cums p) k = Some c -> added (firstn (S k) p) c.
Proof.
  destruct p as [|x r]; [destruct k; discriminate|]. destruct k as [|k]; cbn [cums nth_error firstn].
  - intros [= <-]. apply added_one.
  - intros H. apply (cumsum_added r x [x] (added_one x) k c H).
Qed.
Lemma cumsum_length r : forall s, length (cumsum_from s r) = length r.
Proof. induction r; intros; cbn; auto. Qed.
Lemma cums_length p : length (cums p) = length p.
Proof. destruct p; cbn; auto. now rewrite cumsum_length. Qed.
Lemma cumsum_sorted r : forall s, is_double s -> Forall (Rle 0) r -> StronglySorted Rle (s :: cumsum_from s r).
Proof.
  induction r as [|x r IH]; intros s Ds N; cbn -[to_double]; [repeat constructor|].
  inversion N as [|? ? Px Pr]; subst. specialize (IH (to_double (s + x)) (to_double_is _) Pr).
  assert (s <= to_double (s + x)) as Hs by (apply to_double_ge_double; auto; lra).
  constructor; auto. inversion IH as [|? ? HS HF]; subst. constructor; auto.
  eapply Forall_impl; [|exact HF]. cbn. intros. lra.
Qed.
Lemma cums_sorted p : Forall is_double p -> Forall (Rle 0) p -> StronglySorted Rle (cums p).
Proof.
  destruct p as [|x r]; intros D N; [constructor|]. inversion D; inversion N; subst. apply cumsum_sorted; auto.
Qed.

Lemma cdf_eq p : cdf p = map (fun x => to_double (x / last (cums p) 0)) (cums p).
Proof. reflexivity. Qed.
Lemma cdf_length p : length (cdf p) = length p.
Proof. now rewrite cdf_eq, map_length, cums_length. Qed.
Lemma cums_pos p c : Forall is_double p -> Forall (Rlt 0) p -> In c (cums p) -> 0 < c.
Proof.
  intros D N Hc. assert (N' : Forall (Rle 0) p) by (eapply Forall_impl; [|exact N]; cbn; intros; lra).
  destruct p as [|x r]; [destruct Hc|]. inversion N; subst. 
  pose proof (cums_sorted _ D N') as HS. cbn [cums] in *. inversion HS as [|? ? _ HF]; subst. destruct Hc as [<-|Hc]; auto.
  rewrite Forall_forall in HF. specialize (HF _ Hc). lra.
Qed.
Lemma last_In {A} (l : list A) d : l <> [] -> In (last l d) l.
Proof. induction l as [|x l IH]; [congruence|]. intros _. destruct l; cbn; auto. right. apply IH. discriminate. Qed.
Lemma cdf_sorted p : Forall is_double p -> Forall (Rlt 0) p -> StronglySorted Rle (cdf p).
Proof.
  intros D N. rewrite cdf_eq. destruct p as [|x r]; [constructor|].
  assert (N' : Forall (Rle 0) (x :: r)) by (eapply Forall_impl; [|exact N]; cbn; intros; lra).
  pose proof (cums_sorted _ D N') as HS.
  assert (0 < last (cums (x :: r)) 0) as HL by (eapply cums_pos; eauto; apply last_In; discriminate).
  revert HL. generalize (last (cums (x :: r)) 0). intros L HL. induction HS as [|y l HS IH HF]; cbn [map]; constructor; auto.
  rewrite Forall_map. eapply Forall_impl; [|exact HF]. cbn. intros z Hz. apply to_double_le. unfold Rdiv.
  apply Rmult_le_compat_r; auto. left. now apply Rinv_0_lt_compat.
Qed.
Lemma map_last {A B} (f : A -> B) l d d' : l <> [] -> last (map f l) d' = f (last l d).
Proof. induction l as [|x l IH]; [congruence|]. intros _. destruct l; auto. change (last (map f (a :: l)) d' = f (last (a :: l) d)). apply IH. discriminate. Qed.
Lemma cdf_last p : p <> [] -> Forall is_double p -> Forall (Rlt 0) p -> last (cdf p) 0 = 1.
Proof.
  intros Hne D N. rewrite cdf_eq. assert (cums p <> []) by (destruct p; [congruence|discriminate]).
  rewrite (map_last _ _ 0) by auto. apply quotient_one. eapply cums_pos; eauto. now apply last_In.
Qed.

Lemma searchsorted_spec c u : StronglySorted Rle c -> forall i x, nth_error c i = Some x -> (i < searchsorted c u)%nat <-> x <= u.
Proof.
  unfold searchsorted. induction 1 as [|y l HS IH HF]; intros i x Hi; [destruct i; discriminate|]. cbn [filter].
  destruct (Rle_dec y u) as [Hy|Hy].
  - destruct i as [|i]; cbn in Hi |- *; [injection Hi as <-; split; [auto|lia]|]. rewrite <- Nat.succ_lt_mono. now apply IH.
  - assert (filter (fun x => if Rle_dec x u then true else false) l = []) as ->.
    { rewrite Forall_forall in HF. clear - HF Hy. induction l as [|z l IH]; auto. cbn. destruct (Rle_dec z u) as [Hz|].
      - exfalso. specialize (HF z (or_introl eq_refl)). lra.
      - apply IH. intros w Hw. apply HF. now right. }
    cbn. split; [lia|]. intros Hx. exfalso. destruct i as [|i]; cbn in Hi; [injection Hi as <-; auto|].
    rewrite Forall_forall in HF. specialize (HF x (nth_error_In _ _ Hi)). lra.
Qed.
Lemma nth_error_last {A} (l : list A) d : l <> [] -> nth_error l (length l - 1) = Some (last l d).
Proof.
  induction l as [|x l IH]; [congruence|]. intros _. destruct l as [|y l]; auto. cbn [length]. 
  replace (S (S (length l)) - 1)%nat with (S (S (length l) - 1)) by lia. 
  change (nth_error (y :: l) (length (y :: l) - 1) = Some (last (y :: l) d)). apply IH. discriminate.
Qed.
Lemma searchsorted_range p u : p <> [] -> Forall is_double p -> Forall (Rlt 0) p -> u < 1 -> (searchsorted (cdf p) u < length p)%nat.
Proof.
  intros Hne D N Hu. pose proof (cdf_length p) as HL.
  assert (cdf p <> []) as Hc by (intros E; rewrite E in HL; destruct p; [congruence|discriminate]).
  pose proof (nth_error_last (cdf p) 0 Hc) as Hn. rewrite cdf_last in Hn by auto.
  pose proof (searchsorted_spec (cdf p) u (cdf_sorted p D N) _ _ Hn) as Hs. rewrite HL in *.
  assert (~ (length p - 1 < searchsorted (cdf p) u)%nat) by (rewrite Hs; lra). destruct p; [congruence|]. cbn [length] in *. lia.
Qed.

(** ** The draw *)
Lemma choice_ok uniform i p size : p <> [] -> Forall is_double p -> Forall (Rlt 0) p -> INR (length p) <= 4194304 ->
  rel (/ 2 ^ 28) (rsum p) 1 ->
  choice_double uniform i (Some p) size = Ok (p, map (searchsorted (cdf p)) (uniform i size)).
Proof.
  intros Hne D N Hl (_ & L & U). unfold choice_double. destruct (Nat.eqb_spec (length p) 0) as [E|_].
  { destruct p; [congruence|discriminate]. }
  destruct (existsb _ p) eqn:E.
  { exfalso. apply existsb_exists in E. destruct E as (x & Hx & H). rewrite Forall_forall in N. specialize (N x Hx).
    destruct (Rlt_dec x 0); [lra|discriminate]. }
  destruct (Rlt_dec _ _) as [H|]; [|reflexivity]. exfalso. apply (Rlt_not_le _ _ H).
  assert (N' : Forall (Rle 0) p) by (eapply Forall_impl; [|exact N]; cbn; intros; lra).
  assert (/ 2 ^ 28 = / 268435456) as E28 by (rewrite (pow_IZR 2 28); reflexivity). rewrite E28 in L, U.
  pose proof (kahan_error p D N' ltac:(lra) Hl) as K.
  assert (16 * INR (length p) * eps64 <= 16 * 4194304 * eps64) as K2 by (pose proof eps64_pos; apply Rmult_le_compat_r; lra).
  unfold eps64 in K2 at 2. assert (K3 : Rabs (kahan_sum p - rsum p) <= 16 * 4194304 * / 9007199254740992) by lra. apply Rabs_le_inv in K3.
  pose proof two26_double as D26. pose proof two26 as E26.
  apply Rabs_le. split; [apply to_double_ge_double; [now apply is_double_opp|]|apply to_double_le_double; auto]; rewrite E26; lra.
Qed.
