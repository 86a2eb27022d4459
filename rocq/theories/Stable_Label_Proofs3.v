(** Returns of revised prices, and a three-bar case on both sides of a barrier, for C124. *)
From Coq Require Import Reals ZArith QArith Lra Lia List String Permutation.
From Verif Require Import Prelude PreludeFacts Num Series Boot_Proofs Label_Model Label_Spec Label_Proofs3 Label_Props Stable_Spec Stable_Label_Proofs.
Import ListNotations.
Local Notation length := List.length.
Local Open Scope R_scope.

Lemma returns_moved : forall f c c' c0 c0', 0 <= f < 1 -> 0 < c -> 0 < c0 -> Rabs (c' - c) <= f * c -> Rabs (c0' - c0) <= f * c0 ->
  0 < c0' /\ Rabs (c / c0 - c' / c0') <= 2 * f / (1 - f) * (c / c0).
Proof.
  intros f c c' c0 c0' Hf Hc H0 D D0.
  assert (A : - (f * c) <= c' - c <= f * c) by (unfold Rabs in D; destruct (Rcase_abs _); lra). assert (A0 : - (f * c0) <= c0' - c0 <= f * c0) by (unfold Rabs in D0; destruct (Rcase_abs _); lra).
  assert (G : 0 < (1 - f) * c0) by (apply Rmult_lt_0_compat; lra). assert (G' : (1 - f) * c0 <= c0') by lra. assert (P : 0 < c0') by lra. split; [exact P|].
  replace (c / c0 - c' / c0') with ((c * c0' - c' * c0) / (c0 * c0')) by (field; lra).
  assert (Q : 0 < c0 * c0') by (apply Rmult_lt_0_compat; lra). unfold Rdiv at 1. rewrite Rabs_mult, (Rabs_pos_eq (/ (c0 * c0'))) by (left; apply Rinv_0_lt_compat; exact Q).
  apply (Rmult_le_reg_r (c0 * c0')); [exact Q|]. rewrite Rmult_assoc, Rinv_l, Rmult_1_r by lra.
  apply Rle_trans with (2 * f * c * c0).
  - replace (c * c0' - c' * c0) with (c * (c0' - c0) - c0 * (c' - c)) by ring. apply Rle_trans with (Rabs (c * (c0' - c0)) + Rabs (c0 * (c' - c))).
    + unfold Rminus at 1. eapply Rle_trans; [apply Rabs_triang|]. rewrite Rabs_Ropp. apply Rle_refl.
    + rewrite !Rabs_mult, (Rabs_pos_eq c), (Rabs_pos_eq c0) by lra. apply (Rmult_le_compat_l c) in D0; [|lra]. apply (Rmult_le_compat_l c0) in D; [|lra]. lra.
  - replace (2 * f / (1 - f) * (c / c0) * (c0 * c0')) with (2 * f * c * (c0' / (1 - f))) by (field; lra).
    apply Rmult_le_compat_l; [repeat apply Rmult_le_pos; lra|]. apply (Rmult_le_reg_r (1 - f)); [lra|]. unfold Rdiv. rewrite Rmult_assoc, Rinv_l by lra. lra.
Qed.

Definition three_idx : list Z := [10000000; 20000000; 30000000]%Z.
Definition three (x : R) : frame R := {| f_index := three_idx; f_cols := [("close"%string, [Fin 1; Fin x; Fin 1])] |}.
Definition three_cfg : config R :=
  {| n_expiration_bars := 2; profit_taking_factor := 1; stop_loss_factor := 1; metalabeling := false;
     close_column := "close"; side_column := "side"; volatility_adjusted := false; expiration_label := false |}.
Definition flat_vol : list Z -> list (ext R) -> result (list (Z * ext R)) := fun _ _ => Err KeyError.

Lemma three_times : valid_times three_idx.
Proof. split; [unfold increasingZ, three_idx; repeat constructor; lia|]. intros t Ht. cbn in Ht. repeat destruct Ht as [<-|Ht]; try contradiction; split; reflexivity. Qed.
Lemma three_formed x : well_formed (three x).
Proof. intros name col. unfold column, three. cbn [f_cols find fst]. destruct (String.eqb "close" name); [|discriminate]. intros [= <-]. reflexivity. Qed.
Lemma three_vertical i t : vertical three_idx 2 i t <-> i = 0%nat /\ t = 30000000%Z.
Proof.
  unfold vertical. split; [intros (p & P & E)|intros [-> ->]; exists 2%nat; split; [lia|reflexivity]].
  assert (p < 3)%nat by (change 3%nat with (length three_idx); apply nth_error_Some; congruence). assert (i = 0 /\ p = 2)%nat as [-> ->] by lia. cbn in E. split; congruence.
Qed.
Lemma three_touch x e test t : touch three_idx [Fin 1; Fin x; Fin 1] 0 e (Fin 1) test t <->
  (t = 10000000 /\ t < e)%Z /\ test (Fin ((1 / 1 - 1) * 1)) = true \/ (t = 20000000 /\ t < e)%Z /\ test (Fin ((x / 1 - 1) * 1)) = true \/ (t = 30000000 /\ t < e)%Z /\ test (Fin ((1 / 1 - 1) * 1)) = true.
Proof.
  unfold touch. split.
  - intros (t0 & c0 & k & c & A & B & C & D & E & F). cbn in A, B. injection A as <-. injection B as <-.
    destruct k as [|[|[|k]]]; cbn in C, D; try (destruct k; discriminate); injection C as <-; injection D as <-; rewrite side_return_R in F by lra; [left|right; left|right; right]; (split; [lia|exact F]).
  - intros [[[-> L] H]|[[[-> L] H]|[[-> L] H]]]; exists 10000000%Z, (Fin 1); [exists 0%nat, (Fin 1)|exists 1%nat, (Fin x)|exists 2%nat, (Fin 1)];
      repeat (split; [first [reflexivity|lia]|]); rewrite side_return_R by lra; exact H.
Qed.
Lemma three_row order x : Permutation order (seq 0 3) -> 0 < x -> exists out o, transform flat_vol order three_cfg (three x) = Ok out /\ nth_error out 0 = Some o /\ o_vol o = Fin 1 /\
  (x <= 2 -> o_end o = Some 30000000%Z) /\ (2 < x -> o_end o = Some 20000000%Z).
Proof.
  intros P Hx. assert (CL : column (three x) (close_column three_cfg) = Some [Fin 1; Fin x; Fin 1]) by reflexivity.
  destruct (transform_succeeds flat_vol order three_cfg (three x) [Fin 1; Fin x; Fin 1] three_times (three_formed x) P ltac:(discriminate) CL eq_refl ltac:(discriminate)) as (out & T & Lo).
  - cbn [altb profit_taking_factor stop_loss_factor three_cfg Arith_R a0]. destruct (Rlt_dec 1 0); [lra|reflexivity].
  - discriminate.
  - discriminate.
  - destruct (nth_error out 0) as [o|] eqn:O; [|apply nth_error_None in O; cbn in Lo; lia]. exists out, o. split; [exact T|]. split; [exact O|].
    destruct (out_row_vol flat_vol order three_cfg (three x) out 0 o three_times (three_formed x) P T O) as (cl & vol & _ & RV & NV & _ & _). cbn in RV. injection RV as <-. cbn in NV. injection NV as NV. symmetry in NV. split; [exact NV|].
    pose proof (C27_first_of_three R _ flat_vol order three_cfg (three x) [Fin 1; Fin x; Fin 1] out 0 o (Fin 1) three_times (three_formed x) P CL eq_refl T O ltac:(rewrite NV; reflexivity)) as B. rewrite NV in B.
    change (f_index (three x)) with three_idx in B. cbn [n_expiration_bars profit_taking_factor stop_loss_factor three_cfg] in B.
    assert (SE : forall e, search_end three_idx 2 0 e -> e = 30000000%Z). { intros e [V|[V _]]; [now apply three_vertical in V|]. exfalso. apply (V 30000000%Z). apply three_vertical. now split. }
    assert (T0 : forall r, -1 <= r <= 1 -> below_stop 1 (Fin 1) (Fin r) = false /\ above_profit 1 (Fin 1) (Fin r) = false).
    { intros r Hr. unfold below_stop, above_profit, eltb. cbn [altb a0 Arith_R emul amul aopp]. destruct (Rlt_dec 0 1); [|lra]. cbn [andb]. destruct (Rlt_dec r (- (1) * 1)); [lra|]. destruct (Rlt_dec (1 * 1) r); [lra|]. split; reflexivity. }
    destruct (T0 ((1 / 1 - 1) * 1) ltac:(lra)) as [Z1 Z2].
    assert (BT : forall t, barrier_time three_idx [Fin 1; Fin x; Fin 1] 0 2 1 1 (Fin 1) (Fin 1) t -> t = 30000000%Z \/ t = 20000000%Z /\ (below_stop 1 (Fin 1) (Fin ((x / 1 - 1) * 1)) = true \/ above_profit 1 (Fin 1) (Fin ((x / 1 - 1) * 1)) = true)).
    { intros t [V|(e & E & [U|U])]; [left; now apply three_vertical in V| |]; apply three_touch in U; rewrite ?Z1, ?Z2 in U; destruct U as [[_ U]|[[[U _] W]|[_ U]]]; try discriminate; right; auto. }
    split; intros C; apply B; (split; [|intros u Hu; apply BT in Hu; destruct Hu as [->|[-> Hu]]]).
    + left. apply three_vertical. now split.
    + lia.
    + destruct (T0 ((x / 1 - 1) * 1) ltac:(lra)) as [W1 W2]. rewrite W1, W2 in Hu. destruct Hu; discriminate.
    + right. exists 30000000%Z. split; [left; apply three_vertical; now split|]. right. apply three_touch. right. left. split; [lia|].
      unfold above_profit, eltb. cbn [altb a0 Arith_R emul amul]. destruct (Rlt_dec 0 1); [|lra]. cbn [andb]. destruct (Rlt_dec (1 * 1) ((x / 1 - 1) * 1)); [reflexivity|lra].
    + lia.
    + lia.
Qed.
Lemma labels_margin : forall e, 0 < e -> exists dv order (cfg : config R) y y' c c' out out' o o',
  valid_times (f_index y) /\ f_index y' = f_index y /\ column y (close_column cfg) = Some c /\ column y' (close_column cfg) = Some c' /\ revised e c c' /\
  transform dv order cfg y = Ok out /\ transform dv order cfg y' = Ok out' /\ nth_error out 0 = Some o /\ nth_error out' 0 = Some o' /\
  o_end o = nth_error (f_index y) 2 /\ o_end o' = nth_error (f_index y) 1 /\ o_end o <> o_end o'.
Proof.
  intros e He. destruct (three_row [0; 1; 2]%nat 2 ltac:(reflexivity) ltac:(lra)) as (out & o & T & O & _ & E & _). destruct (three_row [0; 1; 2]%nat (2 + e) ltac:(reflexivity) ltac:(lra)) as (out' & o' & T' & O' & _ & _ & E').
  specialize (E ltac:(lra)). specialize (E' ltac:(lra)). exists flat_vol, [0; 1; 2]%nat, three_cfg, (three 2), (three (2 + e)), [Fin 1; Fin 2; Fin 1], [Fin 1; Fin (2 + e); Fin 1], out, out', o, o'.
  split; [exact three_times|]. split; [reflexivity|]. split; [reflexivity|]. split; [reflexivity|]. split; [unfold revised; repeat (apply Forall2_cons; [apply Rabs_le; lra|]); apply Forall2_nil|].
  split; [exact T|]. split; [exact T'|]. split; [exact O|]. split; [exact O'|]. rewrite E, E'. split; [reflexivity|]. split; [reflexivity|discriminate].
Qed.
