(** Proofs for the rounding of bet sizes. *)
From Coq Require Import Reals Lra Lia ZArith.
From Verif Require Import Series Bet_Model Bet_Spec.
Local Open Scope R_scope.

Definition is_rint (x : R) (k : Z) : Prop := Rabs (x - IZR k) <= 1 / 2 /\ (Rabs (x - IZR k) = 1 / 2 -> Z.even k = true).

Lemma rint_ok x : is_rint x (rint x).
Proof.
  unfold rint. destruct (base_Int_part x) as [H1 H2]. set (f := Int_part x) in *. cbv zeta. set (d := x - IZR f) in *.
  destruct (Rlt_dec d (1 / 2)).
  - split; [rewrite Rabs_pos_eq; unfold d in *; lra|]. rewrite Rabs_pos_eq; unfold d in *; lra.
  - destruct (Rlt_dec (1 / 2) d).
    + unfold is_rint. rewrite plus_IZR. split; [rewrite Rabs_left1; unfold d in *; lra|]. rewrite Rabs_left1; unfold d in *; lra.
    + assert (d = 1 / 2) by lra. destruct (Z.even f) eqn:E.
      * split; [rewrite Rabs_pos_eq; unfold d in *; lra|auto].
      * split; [rewrite plus_IZR, Rabs_left1; unfold d in *; lra|]. intros _. rewrite Z.even_add, E. reflexivity.
Qed.

Lemma is_rint_unique x k k' : is_rint x k -> is_rint x k' -> k = k'.
Proof.
  intros [H1 E1] [H2 E2].
  assert (Hd : Rabs (IZR k - IZR k') <= 1).
  { replace (IZR k - IZR k') with ((x - IZR k') - (x - IZR k)) by lra.
    pose proof (Rabs_triang (x - IZR k') (- (x - IZR k))) as H. rewrite Rabs_Ropp in H. unfold Rminus at 1. lra. }
  rewrite <- minus_IZR in Hd. rewrite <- abs_IZR in Hd. apply le_IZR in Hd.
  destruct (Z.eq_dec k k') as [|Hne]; auto. exfalso.
  assert (Hh : k' = (k + 1)%Z \/ k' = (k - 1)%Z) by lia.
  assert (Rabs (x - IZR k) = 1 / 2 /\ Rabs (x - IZR k') = 1 / 2) as [F1 F2].
  { destruct Hh as [->| ->]; rewrite ?plus_IZR, ?minus_IZR in *; unfold Rabs in *;
      destruct (Rcase_abs _) in H1; destruct (Rcase_abs _) in H2; destruct (Rcase_abs _); destruct (Rcase_abs _); lra. }
  specialize (E1 F1). specialize (E2 F2).
  destruct Hh as [->| ->]; [rewrite Z.even_add, E1 in E2|rewrite Z.even_sub, E1 in E2]; discriminate.
Qed.

Lemma rint_unique x k : is_rint x k -> rint x = k.
Proof. intros H. exact (is_rint_unique x _ _ (rint_ok x) H). Qed.
Lemma rint_near x k : Rabs (x - IZR k) < 1 / 2 -> rint x = k.
Proof. intros H. apply rint_unique. split; [lra|]. intros. lra. Qed.
Lemma rint_IZR k : rint (IZR k) = k.
Proof. apply rint_near. rewrite Rminus_diag_eq, Rabs_R0 by auto. lra. Qed.
Lemma rint_opp x : rint (- x) = (- rint x)%Z.
Proof.
  apply rint_unique. destruct (rint_ok x) as [H1 H2]. unfold is_rint. rewrite opp_IZR.
  replace (- x - - IZR (rint x)) with (- (x - IZR (rint x))) by lra. rewrite Rabs_Ropp. split; auto. intros E. now rewrite Z.even_opp, H2.
Qed.
Lemma rint_mono x y : x <= y -> (rint x <= rint y)%Z.
Proof.
  intros Hle. destruct (Z.le_gt_cases (rint x) (rint y)) as [|Hgt]; auto. exfalso.
  destruct (rint_ok x) as [H1 _]. destruct (rint_ok y) as [H2 _].
  assert (Hk : IZR (rint y) + 1 <= IZR (rint x)) by (rewrite <- plus_IZR; apply IZR_le; lia).
  unfold Rabs in *. destruct (Rcase_abs (x - IZR (rint x))), (Rcase_abs (y - IZR (rint y))); assert (x = y) as -> by lra; lia.
Qed.

Definition r3 (x : R) : R := IZR (rint (x * 1000)) / 1000.
Definition clip (x : R) : R := if Rlt_dec 1 x then 1 else if Rlt_dec x (-1) then -1 else x.
Definition disc (step x : R) : R := clip (r3 (IZR (rint (x / step)) * step)).

Lemma discretise_fin step x : step <> 0 -> discretise_value step (Fin x) = Fin (disc step x).
Proof.
  intros Hs. unfold discretise_value. cbn [ediv aeqb Arith_R a0]. destruct (Req_EM_T step 0); [easy|].
  cbn [round0 emul round3]. change (adiv x step) with (x / step). cbn [amul Arith_R]. fold (r3 (IZR (rint (x / step)) * step)). unfold disc, clip.
  set (v := r3 _). cbn [eltb altb Arith_R]. destruct (Rlt_dec 1 v).
  - cbn [eltb altb Arith_R]. destruct (Rlt_dec 1 (-1)); [lra|reflexivity].
  - cbn [eltb altb Arith_R]. destruct (Rlt_dec v (-1)); reflexivity.
Qed.

Lemma clip_range x : -1 <= clip x <= 1.
Proof. unfold clip. destruct (Rlt_dec 1 x); [lra|]. destruct (Rlt_dec x (-1)); lra. Qed.
Lemma clip_mono x y : x <= y -> clip x <= clip y.
Proof. unfold clip. intros. repeat destruct (Rlt_dec _ _); lra. Qed.
Lemma clip_opp x : clip (- x) = - clip x.
Proof. unfold clip. repeat destruct (Rlt_dec _ _); lra. Qed.
Lemma clip_near x a e : -1 <= x <= 1 -> Rabs (a - x) <= e -> Rabs (clip a - x) <= e.
Proof. unfold clip, Rabs. intros H. repeat destruct (Rlt_dec _ _); repeat destruct (Rcase_abs _); lra. Qed.
Lemma r3_mono x y : x <= y -> r3 x <= r3 y.
Proof. intros H. unfold r3. apply Rmult_le_compat_r; [lra|]. apply IZR_le, rint_mono. lra. Qed.
Lemma r3_opp x : r3 (- x) = - r3 x.
Proof. unfold r3. replace (- x * 1000) with (- (x * 1000)) by lra. rewrite rint_opp, opp_IZR. lra. Qed.
Lemma r3_near x : Rabs (r3 x - x) <= 1 / 2000.
Proof.
  unfold r3. destruct (rint_ok (x * 1000)) as [H _]. replace (IZR (rint (x * 1000)) / 1000 - x) with (- (x * 1000 - IZR (rint (x * 1000))) * / 1000) by lra.
  rewrite Rabs_mult, Rabs_Ropp, (Rabs_pos_eq (/ 1000)) by lra. lra.
Qed.
Lemma r3_thousandths j : r3 (IZR j / 1000) = IZR j / 1000.
Proof. unfold r3. replace (IZR j / 1000 * 1000) with (IZR j) by lra. now rewrite rint_IZR. Qed.

Lemma step_near step x : 0 < step -> Rabs (IZR (rint (x / step)) * step - x) <= step / 2.
Proof.
  intros H. destruct (rint_ok (x / step)) as [H1 _].
  replace (IZR (rint (x / step)) * step - x) with (- (x / step - IZR (rint (x / step))) * step) by (field; lra).
  rewrite Rabs_mult, Rabs_Ropp, (Rabs_pos_eq step) by lra. apply Rle_trans with (1 / 2 * step); [|lra]. apply Rmult_le_compat_r; lra.
Qed.

Lemma disc_range step x : -1 <= disc step x <= 1.
Proof. apply clip_range. Qed.
Lemma disc_mono step x y : 0 < step -> x <= y -> disc step x <= disc step y.
Proof.
  intros Hs H. apply clip_mono, r3_mono. apply Rmult_le_compat_r; [lra|]. apply IZR_le, rint_mono.
  apply Rmult_le_compat_r; auto. left. now apply Rinv_0_lt_compat.
Qed.
Lemma disc_opp step x : step <> 0 -> disc step (- x) = - disc step x.
Proof.
  intros Hs. unfold disc. replace (- x / step) with (- (x / step)) by (field; auto). rewrite rint_opp, opp_IZR.
  replace (- IZR (rint (x / step)) * step) with (- (IZR (rint (x / step)) * step)) by lra. now rewrite r3_opp, clip_opp.
Qed.
Lemma disc_near step x : 0 < step -> -1 <= x <= 1 -> Rabs (disc step x - x) <= step / 2 + 1 / 2000.
Proof.
  intros Hs Hx. apply clip_near; auto. set (q := IZR (rint (x / step)) * step).
  replace (r3 q - x) with ((r3 q - q) + (q - x)) by lra. eapply Rle_trans; [apply Rabs_triang|].
  pose proof (r3_near q). pose proof (step_near step x Hs). fold q in H0. lra.
Qed.

(** Without the caps, rounding twice is rounding once. *)
Lemma round_twice step x : 0 < step ->
  r3 (IZR (rint (r3 (IZR (rint (x / step)) * step) / step)) * step) = r3 (IZR (rint (x / step)) * step).
Proof.
  intros Hs. set (k := rint (x / step)). set (q := IZR k * step). pose proof (r3_near q) as Hq.
  destruct (Rtotal_order step (1 / 1000)) as [Hlt|[->|Hgt]].
  - (* finer than a thousandth *)
    set (j := rint (q * 1000)). assert (Ej : r3 q = IZR j / 1000) by reflexivity.
    pose proof (step_near step (r3 q) Hs) as Hn. unfold r3 at 1. rewrite Ej in *.
    f_equal. f_equal. apply rint_near.
    replace (IZR (rint (IZR j / 1000 / step)) * step * 1000 - IZR j) with ((IZR (rint (IZR j / 1000 / step)) * step - IZR j / 1000) * 1000) by lra.
    rewrite Rabs_mult, (Rabs_pos_eq 1000) by lra. lra.
  - unfold q. replace (IZR k * (1 / 1000)) with (IZR k / 1000) by lra. rewrite r3_thousandths.
    replace (IZR k / 1000 / (1 / 1000)) with (IZR k) by (field). rewrite rint_IZR. replace (IZR k * (1 / 1000)) with (IZR k / 1000) by lra. apply r3_thousandths.
  - assert (rint (r3 q / step) = k) as ->; auto. apply rint_near.
    replace (r3 q / step - IZR k) with ((r3 q - q) * / step) by (unfold q; field; lra).
    rewrite Rabs_mult, (Rabs_pos_eq (/ step)) by (left; now apply Rinv_0_lt_compat).
    apply Rle_lt_trans with (1 / 2000 * / step).
    + apply Rmult_le_compat_r; auto. left. now apply Rinv_0_lt_compat.
    + apply (Rmult_lt_reg_r step); auto. rewrite Rmult_assoc, Rinv_l by lra. lra.
Qed.

Lemma disc_repeat step x : 0 < step -> -1 <= x <= 1 -> disc step (disc step x) = disc step x.
Proof.
  intros Hs.
  assert (Hup : forall x, x <= 1 -> -1 <= r3 (IZR (rint (x / step)) * step) -> disc step (disc step x) = disc step x).
  { clear x. intros x Hx Hlo. unfold disc at 2 3. set (d := r3 (IZR (rint (x / step)) * step)) in *. unfold clip.
    destruct (Rlt_dec 1 d) as [H1|H1].
    - unfold disc. assert (d <= r3 (IZR (rint (1 / step)) * step)).
      { apply r3_mono. apply Rmult_le_compat_r; [lra|]. apply IZR_le, rint_mono. apply Rmult_le_compat_r; auto. left. now apply Rinv_0_lt_compat. }
      unfold clip. destruct (Rlt_dec 1 _); lra.
    - destruct (Rlt_dec d (-1)); [lra|]. unfold disc. unfold d at 1. rewrite round_twice by auto. fold d. unfold clip.
      destruct (Rlt_dec 1 d); [lra|]. destruct (Rlt_dec d (-1)); lra. }
  intros Hx. destruct (Rle_lt_dec (-1) (r3 (IZR (rint (x / step)) * step))) as [H|H]; [apply Hup; lra|].
  assert (Hm : disc step (disc step (- x)) = disc step (- x)).
  { apply Hup; [lra|]. replace (- x / step) with (- (x / step)) by (field; lra). rewrite rint_opp, opp_IZR.
    replace (- IZR (rint (x / step)) * step) with (- (IZR (rint (x / step)) * step)) by lra. rewrite r3_opp. lra. }
  rewrite !disc_opp in Hm by lra. lra.
Qed.

(** A step of [k] thousandths: the nearest multiple, unless it is capped. *)
Lemma disc_multiple k x : (0 < k)%Z -> exists v, nearest_multiple (IZR k / 1000) x v /\
  disc (IZR k / 1000) x = (if Rlt_dec 1 v then 1 else if Rlt_dec v (-1) then -1 else v).
Proof.
  intros Hk. apply IZR_lt in Hk. set (step := IZR k / 1000). assert (0 < step) by (unfold step; lra).
  exists (IZR (rint (x / step)) * step). split.
  - exists (rint (x / step)). split; auto. now apply step_near.
  - unfold disc, clip. assert (r3 (IZR (rint (x / step)) * step) = IZR (rint (x / step)) * step) as ->; auto.
    unfold step. replace (IZR (rint (x / (IZR k / 1000))) * (IZR k / 1000)) with (IZR (rint (x / (IZR k / 1000)) * k) / 1000) by (rewrite mult_IZR; lra).
    apply r3_thousandths.
Qed.

Lemma disc_out_of_range : disc (7 / 10) 5 = 1 /\ disc (7 / 10) 1 = 7 / 10.
Proof.
  assert (rint (5 / (7 / 10)) = 7%Z) as E1 by (apply rint_near; unfold Rabs; destruct (Rcase_abs _); lra).
  assert (rint (1 / (7 / 10)) = 1%Z) as E2 by (apply rint_near; unfold Rabs; destruct (Rcase_abs _); lra).
  unfold disc. rewrite E1, E2. split.
  - replace (IZR 7 * (7 / 10)) with (IZR 4900 / 1000) by lra. rewrite r3_thousandths. unfold clip. destruct (Rlt_dec 1 _); lra.
  - replace (IZR 1 * (7 / 10)) with (IZR 700 / 1000) by lra. rewrite r3_thousandths. unfold clip. destruct (Rlt_dec 1 _); [lra|]. destruct (Rlt_dec _ (-1)); lra.
Qed.
