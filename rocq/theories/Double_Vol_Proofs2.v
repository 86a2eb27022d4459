(** The daily volatility in doubles, from the prices: the rounding of the returns and of the deviation together. *)
From Coq Require Import Reals ZArith Lra Lia List String.
From Flocq.Core Require Raux Zaux.
From Verif Require Import Prelude PreludeFacts Num Series DailyVol_Model Feat_Model Boot_Proofs Cusum_Proofs
  Double_Model Double_Spec Double_Proofs Double_Proofs2 Double_Bet_Proofs2 Double_Vpin_Model Double_Z_Model Double_Ewm_Model Double_Ewm_Proofs Double_Ewm_Proofs2 Double_Bound_Spec Double_Bound_Proofs
  Double_Ewm_Bound_Proofs Double_Ewm_Bound_Proofs2 Double_Ewm_Bound_Proofs3 Double_Vol_Proofs.
Import ListNotations.
Local Open Scope R_scope.
Local Notation length := List.length.
Local Notation DA := Arith_double.

(** Prices that are doubles between lo and K * lo. *)
Section Prices.
  Variable (lo K : R).
  Hypothesis (Hlo : 0 < lo) (HK : 1 <= K <= 2 ^ 40).
  Definition price (x : ext R) : Prop := exists p, x = Fin p /\ is_double p /\ lo <= p <= K * lo.
  Definition ret (N : Arith R) (x y : ext R) : ext R := @esub R N (@ediv R N x y) (Fin (@a1 R N)).

  Lemma ret_exact p q : 0 < q -> ret Arith_R (Fin p) (Fin q) = Fin (p / q - 1).
  Proof. intros Hq. unfold ret, ediv. cbn [aeqb a0 Arith_R]. destruct (Req_EM_T q 0); [lra|]. reflexivity. Qed.
  Lemma ret_double p q : 0 < q -> ret DA (Fin p) (Fin q) = Fin (to_double (to_double (p / q) - 1)).
  Proof. intros Hq. unfold ret, ediv. cbn [aeqb a0 Arith_double]. destruct (Req_EM_T q 0); [lra|]. reflexivity. Qed.
  Lemma ratio p q : lo <= p <= K * lo -> lo <= q <= K * lo -> 0 < p / q <= K.
  Proof.
    intros Hp Hq. split; [apply Rdiv_lt_0_compat; lra|]. apply (Rmult_le_reg_r q); [lra|]. unfold Rdiv. rewrite Rmult_assoc, Rinv_l by lra. rewrite Rmult_1_r.
    apply Rle_trans with (K * lo); [lra|]. apply Rmult_le_compat_l; lra.
  Qed.
  Lemma K_small : eps64 * K <= 1 / 8192.
  Proof. apply Rle_trans with (eps64 * 2 ^ 40); [apply Rmult_le_compat_l; [unfold eps64; lra|lra]|]. unfold eps64. lra. Qed.
  Definition close_return (a b : R) : Prop := is_double a /\ Rabs a <= K /\ Rabs b <= K /\ Rabs (a - b) <= 3 * eps64 * K.
  Lemma ret_close x y : price x -> price y -> both close_return (ret DA x y) (ret Arith_R x y).
  Proof.
    intros (p & -> & Dp & Hp) (q & -> & Dq & Hq). rewrite ret_double, ret_exact by lra. eexists _, _. split; [reflexivity|]. split; [reflexivity|].
    pose proof (ratio p q Hp Hq) as [r0 r1]. set (r := p / q) in *. pose proof K_small as KS. pose proof tiny_1 as [t0 t1].
    pose proof (rnd r K ltac:(apply Rabs_le; lra)) as E1. pose proof (to_double_nonneg r ltac:(lra)) as P. set (r' := to_double r) in *. assert (e0 : 0 < eps64 <= 1 / 1000000) by (unfold eps64; lra). assert (ek : eps64 <= eps64 * K) by (rewrite <- (Rmult_1_r eps64) at 1; apply Rmult_le_compat_l; lra).
    pose proof (rnd (r' - 1) K ltac:(apply Rabs_le; lra)) as E2. assert (LB : -1 <= to_double (r' - 1)) by (apply Rle_trans with (to_double (Ropp 1)); [rewrite to_double_opp, (to_double_id 1 is_double_1); lra|apply to_double_le; lra]).
    split; [apply to_double_is|]. split; [|split]; apply Rabs_le; lra.
  Qed.

  Lemma combine_both (Q : R -> R -> Prop) (ts : list Z) cur ref : (forall x y, In x cur -> In y ref -> both Q (ret DA x y) (ret Arith_R x y)) ->
    let r' := combine ts (map (fun x => @esub R DA x (Fin (@a1 R DA))) (zipw (@ediv R DA) cur ref)) in
    let r := combine ts (map (fun x => @esub R Arith_R x (Fin (@a1 R Arith_R))) (zipw (@ediv R Arith_R) cur ref)) in
    map fst r' = map fst r /\ Forall2 (both Q) (map snd r') (map snd r).
  Proof.
    cbv zeta. revert ts ref. induction cur as [|x cur IH]; intros [|t ts] [|y ref] H; cbn; try (split; [reflexivity|constructor]).
    destruct (IH ts ref ltac:(intros; apply H; now right)) as [A B]. split; [exact (f_equal (cons t) A)|]. constructor; [|exact B]. apply H; now left.
  Qed.
  Lemma returns_close idx close r' : Forall price close -> @daily_returns R DA idx close = Ok r' -> exists r, @daily_returns R Arith_R idx close = Ok r /\ map fst r' = map fst r /\ Forall2 (both close_return) (map snd r') (map snd r).
  Proof.
    intros F. unfold daily_returns. destruct (mapM _ (filter _ _)) as [refs|]; [|discriminate]. cbn [bind].
    destruct (mapM (loc_value idx close) (skipn _ _)) as [cur|] eqn:C; [|discriminate]. cbn [bind]. destruct (mapM (loc_value idx close) refs) as [ref|] eqn:Rf; [|discriminate]. cbn [bind].
    intros [= <-]. pose proof (mapM_loc (A := R) (H := DA) _ _ _ _ price F C) as Fc. pose proof (mapM_loc (A := R) (H := DA) _ _ _ _ price F Rf) as Fr. rewrite Forall_forall in Fc, Fr.
    eexists. split; [reflexivity|]. apply combine_both. intros x y Hx Hy. apply ret_close; auto.
  Qed.

  Variable span : R.
  Hypothesis (Hs : 2 <= span) (Hs14 : span + 1 <= 16384).
  Lemma K_500 : powerRZ 2 (-500) <= K.
  Proof. apply Rle_trans with 1; [|lra]. rewrite <- bpow2. now apply (Raux.bpow_le Zaux.radix2 (-500) 0). Qed.

  Lemma rows_close l' l i x y : Forall2 (both close_return) l' l -> nth_error (@ewmstd_running R DA double_root span l') i = Some x -> nth_error (ewm_std span l) i = Some y ->
    (i = 0%nat /\ x = NaN /\ y = NaN) \/ exists a b, x = Fin a /\ y = Fin b /\ 0 <= a /\ 0 <= b /\
      Rabs (a - b) * b <= K ^ 2 * (span + 1) ^ 3 / 2 ^ 39 /\ Rabs (a - b) ^ 2 <= K ^ 2 * (span + 1) ^ 3 / 2 ^ 38.
  Proof.
    intros F Hx Hy. assert (L : (i < length l')%nat). { rewrite (Forall2_len _ _ _ F). unfold ewm_std in Hy. assert (H : nth_error (map (ewm_std_at span l) (seq 0 (length l))) i <> None) by now rewrite Hy. apply nth_error_Some in H. now rewrite map_length, seq_length in H. }
    destruct (nth_error (ewm_std span l') i) as [z|] eqn:Hz; [|exfalso; apply nth_error_None in Hz; unfold ewm_std in Hz; rewrite map_length, seq_length in Hz; lia].
    assert (F2 : Forall2 (near (3 * eps64 * K)) l' l) by (clear -F; induction F as [|u v l' l (a & b & -> & -> & _ & _ & _ & Hab)]; constructor; [exists a, b; auto|assumption]).
    assert (HB : held_below K l' /\ (forall v, In v l' -> exists c, v = Fin c) /\ (forall v, In v l -> exists c, v = Fin c /\ Rabs c <= K)).
    { clear -F. induction F as [|u v l' l (a & b & -> & -> & D & A & B & _) F (I1 & I2 & I3)]; [split; [intros v []|split; intros v []]|]. split; [intros v [Hv|Hv]; [injection Hv as <-; auto|now apply I1]|].
      split; intros v [<-|Hv]; eauto. }
    destruct HB as (HB & HF & HB').
    pose proof (deviation_rows span K Hs Hs14 K_500 l' i x z HB HF Hx Hz) as DV. pose proof (std_near _ span l' l i z y ltac:(lra) F2 Hz Hy) as SN. pose proof (std_size K span l i y ltac:(lra) HB' Hy) as SZ.
    destruct DV as [(-> & -> & ->)|(a & b & -> & -> & Ha & Hb & D1 & D2)].
    - left. split; [reflexivity|]. split; [reflexivity|]. destruct SN as [(_ & ->)|(? & ? & ? & _)]; [reflexivity|discriminate].
    - right. destruct SN as [(? & _)|(b' & c & E & -> & _ & Hc & N)]; [discriminate|]. injection E as <-. destruct SZ as [?|(c' & E & _ & SZ)]; [discriminate|]. injection E as <-.
      exists a, c. split; [reflexivity|]. split; [reflexivity|]. split; [exact Ha|]. split; [exact Hc|].
      assert (W3 : 27 <= (span + 1) ^ 3). { replace 27 with (3 ^ 3) by ring. apply pow_incr. lra. } assert (K2 : 0 < K ^ 2) by (apply pow_lt; lra).
      assert (G : 27 * K ^ 2 <= K ^ 2 * (span + 1) ^ 3) by (rewrite (Rmult_comm 27); apply Rmult_le_compat_l; lra). set (g := K ^ 2 * (span + 1) ^ 3) in *. clearbody g.
      rewrite (pow_IZR 2 41) in D1. change (IZR (2 ^ Z.of_nat 41)) with 2199023255552 in D1. rewrite (pow_IZR 2 40) in D2. change (IZR (2 ^ Z.of_nat 40)) with 1099511627776 in D2.
      rewrite (pow_IZR 2 39), (pow_IZR 2 38). change (IZR (2 ^ Z.of_nat 39)) with 549755813888. change (IZR (2 ^ Z.of_nat 38)) with 274877906944.
      assert (d1 : 0 <= Rabs (a - b)) by apply Rabs_pos. assert (d2 : 0 <= Rabs (b - c)) by apply Rabs_pos. assert (T : Rabs (a - c) <= Rabs (a - b) + Rabs (b - c)) by (replace (a - c) with ((a - b) + (b - c)) by ring; apply Rabs_triang).
      assert (C : c <= b + Rabs (b - c)) by (rewrite Rabs_minus_sym; pose proof (Rle_abs (c - b)); lra).
      assert (c1 : c <= 3 / 2 * K). { destruct (Rle_lt_dec c (3 / 2 * K)) as [H|H]; [exact H|exfalso]. assert (3 / 2 * K * (3 / 2 * K) < c * c) by (apply Rmult_le_0_lt_compat; lra). cbn in K2. lra. }
      assert (e1 : Rabs (b - c) <= 5 * eps64 * K). { destruct (Rle_lt_dec (Rabs (b - c)) (5 * eps64 * K)) as [H|H]; [exact H|exfalso]. assert (0 < eps64 * K) by (apply Rmult_lt_0_compat; [unfold eps64|]; lra).
        assert (5 * eps64 * K * (5 * eps64 * K) < Rabs (b - c) * Rabs (b - c)) by (apply Rmult_le_0_lt_compat; lra). assert (0 < eps64 * K * (eps64 * K)) by (apply Rmult_lt_0_compat; lra). cbn in N. lra. }
      pose proof (Rabs_pos (a - c)) as d0. set (u := Rabs (a - b)) in *. set (v := Rabs (b - c)) in *. set (w := Rabs (a - c)) in *. clearbody u v w.
      assert (vv : v * v <= 25 * eps64 * K ^ 2). { apply Rle_trans with (5 * eps64 * K * (5 * eps64 * K)); [apply Rmult_le_compat; lra|]. replace (5 * eps64 * K * (5 * eps64 * K)) with (25 * eps64 * K ^ 2 * eps64) by ring. rewrite <- (Rmult_1_r (25 * eps64 * K ^ 2)) at 2. apply Rmult_le_compat_l; [|unfold eps64; lra]. apply Rmult_le_pos; [unfold eps64; lra|lra]. }
      assert (uv : 2 * (u * v) <= u * u + v * v) by (pose proof (Rle_0_sqr (u - v)) as Q; unfold Rsqr in Q; lra).
      assert (vc : v * c <= 15 / 2 * eps64 * K ^ 2). { apply Rle_trans with (5 * eps64 * K * (3 / 2 * K)); [apply Rmult_le_compat; lra|]. apply Req_le. field. }
      assert (uc : u * c <= u * b + u * v) by (rewrite <- Rmult_plus_distr_l; apply Rmult_le_compat_l; lra).
      assert (D2' : u * u <= g / 1099511627776) by (cbn in D2; lra). unfold eps64 in *. split.
      + apply Rle_trans with ((u + v) * c); [apply Rmult_le_compat_r; lra|]. lra.
      + cbn [pow]. rewrite Rmult_1_r. apply Rle_trans with ((u + v) * (u + v)); [apply Rmult_le_compat; lra|]. lra.
  Qed.

  Lemma volatility_close idx close out' : Forall price close -> daily_vol_running DA double_root span idx close = Ok out' ->
    exists out, get_daily_vol (ewm_std span) idx close = Ok out /\ map fst out' = map fst out /\
    forall i t x y, nth_error out' i = Some (t, x) -> nth_error out i = Some (t, y) ->
    (i = 0%nat /\ x = NaN /\ y = NaN) \/ exists a b, x = Fin a /\ y = Fin b /\ 0 <= a /\ 0 <= b /\
      Rabs (a - b) * b <= K ^ 2 * (span + 1) ^ 3 / 2 ^ 39 /\ Rabs (a - b) ^ 2 <= K ^ 2 * (span + 1) ^ 3 / 2 ^ 38.
  Proof.
    intros F. unfold daily_vol_running, get_daily_vol. destruct (@daily_returns R DA idx close) as [r'|] eqn:E; [|discriminate]. cbn [bind]. intros [= <-].
    destruct (returns_close idx close r' F E) as (r & -> & T & C). cbn [bind]. eexists. split; [reflexivity|].
    assert (L1 : length (@ewmstd_running R DA double_root span (map snd r')) = length r') by (unfold ewmstd_running, ewmvar_run; now rewrite map_length, scan_len, map_length).
    assert (L2 : length (ewm_std span (map snd r)) = length r) by (unfold ewm_std; now rewrite map_length, seq_length, map_length).
    assert (L3 : length r' = length r) by (rewrite <- (map_length fst r'), T; apply map_length).
    split.
    - rewrite !map_fst_combine; [exact T| |]; rewrite map_length; lia.
    - intros i t x y Hx Hy. apply (rows_close (map snd r') (map snd r) i x y C).
      + apply nth_error_combine_inv in Hx. tauto.
      + apply nth_error_combine_inv in Hy. tauto.
  Qed.
End Prices.
