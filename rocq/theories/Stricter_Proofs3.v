(** Wider barriers and longer horizons. *)
From Coq Require Import Classical_Prop Reals Lra Lia ZArith String Permutation.
From Verif Require Import PreludeFacts Series Boot_Proofs DailyVol_Model Label_Model Label_Spec Label_Proofs Label_Proofs2 Label_Proofs3 Label_Proofs4 Direction_Proofs2 Stricter_Spec.
Local Open Scope nat_scope.

Lemma least_exists : forall (P : Z -> Prop) t, P t -> (forall u, P u -> (0 <= u)%Z) -> exists s, least P s.
Proof.
  intros P t Ht B. assert (G : forall n s, P s -> (Z.to_nat s < n) -> exists s, least P s).
  { induction n as [|n IH]; intros s Hs L; [lia|]. destruct (classic (exists u, P u /\ (u < s)%Z)) as [(u & U1 & U2)|N].
    - apply (IH u U1). specialize (B u U1). pose proof (B). lia.
    - exists s. split; [exact Hs|]. intros u Hu. destruct (Z.le_gt_cases s u) as [|G]; [assumption|]. exfalso. apply N. exists u. split; [exact Hu|lia]. }
  exact (G _ t Ht (Nat.lt_succ_diag_r _)).
Qed.

Lemma wider_profit : forall f f' v r, wider f f' -> (0 <= v)%R -> above_profit f' (Fin v) r = true -> above_profit f (Fin v) r = true.
Proof.
  intros f f' v r W Hv. unfold above_profit. rewrite !andb_true_iff, !altb_iff. cbn [emul]. intros [K1 K2]. destruct W as [W|W]; [cbn in K1; lra|]. split; [cbn; lra|].
  destruct r as [r| | |]; cbn [eltb] in *; try discriminate; auto. apply altb_iff in K2. apply altb_iff. cbn in *. nra.
Qed.
Lemma wider_stop : forall f f' v r, wider f f' -> (0 <= v)%R -> below_stop f' (Fin v) r = true -> below_stop f (Fin v) r = true.
Proof.
  intros f f' v r W Hv. unfold below_stop. rewrite !andb_true_iff, !altb_iff. cbn [emul]. intros [K1 K2]. destruct W as [W|W]; [cbn in K1; lra|]. split; [cbn; lra|].
  destruct r as [r| | |]; cbn [eltb] in *; try discriminate; auto. apply altb_iff in K2. apply altb_iff. cbn in *. nra.
Qed.

Section Ends.
  Variables (idx : list Z) (close : list (ext R)) (i : nat) (n n' : Z) (pt pt' sl sl' v : R) (s : ext R).
  Hypotheses (Hi : increasingZ idx) (Li : i < length idx) (Hn : (0 <= n <= n')%Z) (Hp : wider pt pt') (Hs : wider sl sl') (Hv : (0 <= v)%R).
  Lemma vertical_earlier : forall t', vertical idx n' i t' -> exists t, vertical idx n i t /\ (t <= t')%Z.
  Proof.
    intros t' (p & E & P). assert (L : p < length idx) by (apply nth_error_Some; congruence). set (q := Z.to_nat (Z.of_nat i + n)).
    assert (Q : q <= p) by (unfold q; lia). destruct (nth_error idx q) as [t|] eqn:T; [|apply nth_error_None in T; lia].
    exists t. split; [exists q; split; [unfold q; lia|exact T]|]. exact (proj1 (incZ_nth_le idx Hi q p t t' T P) Q).
  Qed.
  Lemma earlier_candidate : forall t', barrier_time idx close i n' pt' sl' (Fin v) s t' -> exists t, barrier_time idx close i n pt sl (Fin v) s t /\ (t <= t')%Z.
  Proof.
    intros t' B. destruct B as [B|(e' & Se' & B)].
    - destruct (vertical_earlier t' B) as (t & T1 & T2). exists t. split; [now left|exact T2].
    - destruct (search_end_exists idx n i Li) as [e Se]. destruct (Z.lt_ge_cases t' e) as [L|L].
      + exists t'. split; [|lia]. right. exists e. split; [exact Se|]. destruct B as [(t0 & c0 & k & c & B1 & B2 & B3 & B4 & B5 & B6)|(t0 & c0 & k & c & B1 & B2 & B3 & B4 & B5 & B6)]; [left|right];
          exists t0, c0, k, c; repeat (split; [first [assumption|lia]|]); [eapply wider_stop|eapply wider_profit]; eauto.
      + destruct Se as [Se|[Se1 Se2]]; [exists e; split; [now left|exact L]|]. exfalso.
        assert (e' = e).
        { destruct Se' as [V|[_ V]]; [destruct (vertical_earlier e' V) as (u & U & _); exfalso; exact (Se1 u U)|congruence]. }
        subst e'. destruct B as [(t0 & c0 & k & c & B1 & B2 & B3 & B4 & B5 & B6)|(t0 & c0 & k & c & B1 & B2 & B3 & B4 & B5 & B6)]; lia.
  Qed.
End Ends.

Lemma c101_labels : forall span order (cfg cfg' : config R) y out out' i o o' t',
  valid_times (f_index y) -> well_formed y -> Permutation order (seq 0 (List.length (f_index y))) ->
  close_column cfg' = close_column cfg -> volatility_adjusted cfg' = volatility_adjusted cfg ->
  (0 <= n_expiration_bars cfg <= n_expiration_bars cfg')%Z -> wider (profit_taking_factor cfg) (profit_taking_factor cfg') ->
  wider (stop_loss_factor cfg) (stop_loss_factor cfg') ->
  transform (get_daily_vol (ewm_std span)) order cfg y = Ok out -> transform (get_daily_vol (ewm_std span)) order cfg' y = Ok out' ->
  nth_error out i = Some o -> nth_error out' i = Some o' -> o_end o' = Some t' ->
  exists t, o_end o = Some t /\ (t <= t')%Z.
Proof.
  intros span order cfg cfg' y out out' i o o' t' Hv Hw Ho Ec Ev Hn Hp Hs T T' N N' E'.
  destruct (out_row_vol _ _ _ _ _ _ _ Hv Hw Ho T N) as (close & vol & C1 & V1 & V2 & Li & R1).
  destruct (out_row_vol _ _ _ _ _ _ _ Hv Hw Ho T' N') as (close' & vol' & C1' & V1' & V2' & _ & _).
  rewrite Ec, C1 in C1'. injection C1' as <-. unfold row_vols in V1, V1'. rewrite Ev in V1'. rewrite V1 in V1'. injection V1' as <-. rewrite V2 in V2'. injection V2' as V.
  destruct (vol_sign span order cfg' y out' i o' Hv Hw Ho T' N') as [K|(v & K & Kv)].
  { destruct (c27_novol _ _ _ _ _ _ _ Hv Hw Ho T' N' ltac:(now rewrite K)) as (A & _). congruence. }
  destruct R1 as (t0 & s & b & l & _ & Es & _).
  pose proof (c27 _ _ _ _ _ _ _ _ _ Hv Hw Ho (eq_trans (f_equal (column y) Ec) C1) Es T' N' ltac:(now rewrite K)) as M'.
  pose proof (c27 _ _ _ _ _ _ _ _ _ Hv Hw Ho C1 Es T N ltac:(now rewrite V, K)) as M. rewrite V, K in M. rewrite K in M'.
  apply M' in E'. destruct E' as [B _].
  destruct (earlier_candidate _ close _ _ _ _ _ _ _ v s (proj1 Hv) Li Hn Hp Hs Kv t' B) as (u & U1 & U2).
  destruct (least_exists _ u U1) as [t Tl].
  { intros w W. apply barrier_in in W. pose proof (proj2 Hv w W). lia. }
  exists t. split; [now apply M|]. pose proof (proj2 Tl u U1). lia.
Qed.
