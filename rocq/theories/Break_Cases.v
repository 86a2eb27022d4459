(** Concrete runs of the structural-break tests. *)
From Coq Require Import Reals Lra String.
From Verif Require Import PreludeFacts Series Label_Proofs2 OLS_Model OLS_Spec OLS_Proofs OLS_Proofs2 Break_Model Break_Spec OLS_TStat
  Break_Proofs Break_Proofs2 Break_Proofs3 Break_Proofs4 Break_Proofs5 Trend_Spec Trend_Proofs4.
Local Open Scope nat_scope.

Lemma det_inverse X : nc X = 2 -> (at_ (gram X) 0 0 * at_ (gram X) 1 1 - at_ (gram X) 0 1 * at_ (gram X) 1 0 <> 0)%R -> exists N, inverse_of (gram X) N.
Proof.
  intros Hc Hd. destruct (inv_small (gram X)) as [N|] eqn:E; [exists N; now apply inv_small_sound|]. exfalso.
  unfold inv_small in E. cbn [gram nc nr] in E. rewrite Hc, Nat.eqb_refl in E. cbn [negb] in E. cbv zeta in E.
  destruct (Req_EM_T _ 0) as [E0|]; [|discriminate]. now apply Hd.
Qed.

(** Logarithms 1, 0, 0, 1, 1. *)
Definition ex_log : list (Z * R) := [(0, exp 1); (1, 1%R); (2, 1%R); (3, exp 1); (4, exp 1)]%Z.

Lemma X_exp start stop i : nr (X_of "sm_exp" 0 true (vals ex_log) start stop) = stop - start /\
  nc (X_of "sm_exp" 0 true (vals ex_log) start stop) = 2 /\
  at_ (X_of "sm_exp" 0 true (vals ex_log) start stop) i 0 = INR (start + i + 1) /\ at_ (X_of "sm_exp" 0 true (vals ex_log) start stop) i 1 = 1%R.
Proof. repeat split. Qed.

Lemma sse_exp start stop b : sse (X_of "sm_exp" 0 true (vals ex_log) start stop) (Y_of "sm_exp" 0 (vals ex_log) start stop) b =
  rsumn (stop - start) (fun i => let e := (ln (vals ex_log (start + i)) - (INR (start + i + 1) * b 0%nat + b 1%nat)) in e * e)%R.
Proof.
  unfold sse. change (nr (X_of "sm_exp" 0 true (vals ex_log) start stop)) with (stop - start). apply rsumn_ext. intros i Hi.
  assert (resid (X_of "sm_exp" 0 true (vals ex_log) start stop) (Y_of "sm_exp" 0 (vals ex_log) start stop) b i = ln (vals ex_log (start + i)) - (INR (start + i + 1) * b 0%nat + b 1%nat))%R as ->; auto.
  unfold resid. change (nc (X_of "sm_exp" 0 true (vals ex_log) start stop)) with 2. cbn [rsumn].
  destruct (X_exp start stop i) as (_ & _ & -> & ->).
  change (at_ (Y_of "sm_exp" 0 (vals ex_log) start stop) i 0) with (ln (vals ex_log (start + i))). lra.
Qed.

Lemma logs : ln (vals ex_log 0) = 1%R /\ ln (vals ex_log 1) = 0%R /\ ln (vals ex_log 2) = 0%R /\ ln (vals ex_log 3) = 1%R /\ ln (vals ex_log 4) = 1%R.
Proof. unfold vals. cbn [ex_log map snd nth]. rewrite ln_exp, ln_1. auto. Qed.

Lemma sse_0 b : sse (X_of "sm_exp" 0 true (vals ex_log) 0 5) (Y_of "sm_exp" 0 (vals ex_log) 0 5) b =
  (11 / 10 + 5 * (b 1%nat + 3 * b 0%nat - 6 / 10) * (b 1%nat + 3 * b 0%nat - 6 / 10) + 10 * (b 0%nat - 1 / 10) * (b 0%nat - 1 / 10))%R.
Proof.
  rewrite sse_exp. destruct logs as (H0 & H1 & H2 & H3 & H4). cbn [Nat.sub Nat.add rsumn]. rewrite H0, H1, H2, H3, H4. cbn [INR]. field.
Qed.
Lemma sse_1 b : sse (X_of "sm_exp" 0 true (vals ex_log) 1 5) (Y_of "sm_exp" 0 (vals ex_log) 1 5) b =
  (2 / 10 + 4 * (b 1%nat + 7 / 2 * b 0%nat - 1 / 2) * (b 1%nat + 7 / 2 * b 0%nat - 1 / 2) + 5 * (b 0%nat - 4 / 10) * (b 0%nat - 4 / 10))%R.
Proof.
  rewrite sse_exp. destruct logs as (H0 & H1 & H2 & H3 & H4). cbn [Nat.sub Nat.add rsumn]. rewrite H1, H2, H3, H4. cbn [INR]. field.
Qed.
Lemma sq_pos (a : R) : (0 <= a * a)%R. Proof. exact (Rle_0_sqr a). Qed.

Lemma ex_nondeg start stop : start + 4 <= stop -> 4 < stop <= 5 ->
  ~ degenerate (X_of "sm_exp" 0 true (vals ex_log) start stop) (Y_of "sm_exp" 0 (vals ex_log) start stop).
Proof.
  intros H1 H2. assert (stop = 5) as -> by lia. intros [Hd|[b Hb]].
  - assert (exists N, inverse_of (gram (X_of "sm_exp" 0 true (vals ex_log) start 5)) N) as [N HN]; [|now apply (Hd N)].
    apply det_inverse; [reflexivity|]. assert (start = 0 \/ start = 1) as [->| ->] by lia; cbn -[INR]; cbn [INR]; lra.
  - assert (start = 0 \/ start = 1) as [->| ->] by lia.
    + rewrite sse_0 in Hb. pose proof (sq_pos (b 1%nat + 3 * b 0%nat - 6 / 10)). pose proof (sq_pos (b 0%nat - 1 / 10)). lra.
    + rewrite sse_1 in Hb. pose proof (sq_pos (b 1%nat + 7 / 2 * b 0%nat - 1 / 2)). pose proof (sq_pos (b 0%nat - 4 / 10)). lra.
Qed.

Lemma ex_sadf : exists v, sadf_run inv_small "sm_exp" 0 4 true (1 / 2) ex_log = Ok [(4%Z, Fin v)] /\ (0 < v)%R.
Proof.
  assert (Hv : valid "sm_exp" 0) by (right; reflexivity).
  assert (Hk : n_cols "sm_exp" 0 true < 4) by (cbn; lia).
  destruct (proj2 (c46_defined inv_small inv_small_sound "sm_exp" 0 4 true (1 / 2) Hv ex_log Hk inv_small_complete_2)) as [out H].
  { split; [cbn; lia|]. split.
    - intros _ _. pose proof (exp_pos 1). repeat constructor; cbn; lra.
    - exact ex_nondeg. }
  destruct (c46 inv_small inv_small_sound "sm_exp" 0 4 true (1 / 2) Hv ex_log out Hk H) as (_ & HL & Hn).
  destruct (Hn 0 ltac:(cbn; lia)) as (v & Ev & _ & Hmax).
  exists v. split.
  - rewrite H. f_equal. destruct out as [|p [|p' out]]; try discriminate. cbn in Ev. congruence.
  - destruct (Hmax 1 ltac:(lia)) as (u & (t & (b & N & HN & Hb & Et) & Hu) & Hle).
    cbn [Nat.add] in *.
    assert (Hb0 : b 0%nat = (4 / 10)%R).
    { specialize (Hb (fun l => match l with O => 4 / 10 | _ => - (9 / 10) end)%R). rewrite !sse_1 in Hb. cbv beta iota in Hb.
      pose proof (sq_pos (b 1%nat + 7 / 2 * b 0%nat - 1 / 2)). pose proof (sq_pos (b 0%nat - 4 / 10)).
      assert ((b 0%nat - 4 / 10) * (b 0%nat - 4 / 10) = 0)%R as E0 by lra. apply Rmult_integral in E0. lra. }
    assert (Ht : (0 < Rabs t)%R).
    { apply Rabs_pos_lt. rewrite Et, Hb0. apply Rgt_not_eq. apply Rmult_lt_0_compat; [lra|]. apply Rinv_0_lt_compat. apply sqrt_lt_R0.
      apply Rmult_lt_0_compat; [|apply (inv_gram_diag _ N 0 HN); cbn; lia]. apply Rmult_lt_0_compat.
      - rewrite sse_1. pose proof (sq_pos (b 1%nat + 7 / 2 * b 0%nat - 1 / 2)). pose proof (sq_pos (b 0%nat - 4 / 10)). lra.
      - apply Rinv_0_lt_compat. cbn. lra. }
    assert (0 < u)%R; [|lra]. rewrite Hu. unfold code_stat. cbn [is_martingale String.eqb Ascii.eqb Bool.eqb orb].
    change (if is_martingale "sm_exp" then (Rabs t / Rpower (INR 2) (1 / 2))%R else t) with (Rabs t / Rpower (INR 2) (1 / 2))%R.
    apply Rmult_lt_0_compat; auto. apply Rinv_0_lt_compat. apply exp_pos.
Qed.

(** A run with windows of exactly two rows for two regressors. *)
Definition ex_square : list (Z * R) := [(0, 0%R); (1, 1%R); (2, 0%R); (3, 1%R); (4, 1%R)]%Z.

Lemma ex_square_run : sadf_run inv_small "no_trend" 1 2 false 0 ex_square = Ok [(4%Z, NaN)].
Proof.
  assert (Hv : valid "no_trend" 1) by (left; split; [reflexivity|lia]).
  assert (exists out, sadf_run inv_small "no_trend" 1 2 false 0 ex_square = Ok out) as [out H].
  { destruct (proj2 (get_X_y_defined (map snd ex_square) "no_trend" 1 false Hv)) as [[[X y] pos] E]; [discriminate|].
    pose proof (get_X_y_ok _ _ _ _ _ _ _ Hv E) as Hxy. pose proof Hxy as (Hy & _). cbn in Hy.
    unfold sadf_run. rewrite E. cbn [bind]. rewrite Hy. cbn [Nat.ltb Nat.leb raise_if bind Nat.sub seq mapM].
    assert (A0 : exists e, adf_at inv_small X y 3 "no_trend" 0 0 = Ok e).
    { apply (proj1 (adf_at_cases inv_small inv_small_sound "no_trend" 1 3 false 0 (map snd ex_square) Hv ltac:(cbn; lia) X y pos Hxy 0 3 ltac:(lia) ltac:(cbn; lia))).
      split; [|exact inv_small_complete_2]. intros [Hd|[b Hb]].
      - assert (exists N, inverse_of (gram (X_of "no_trend" 1 false (fun i => nth i (map snd ex_square) 0%R) 0 3)) N) as [N HN]; [|now apply (Hd N)].
        apply det_inverse; [reflexivity|]. cbn. lra.
      - unfold sse, resid in Hb. cbn in Hb. revert Hb. generalize (b 0%nat) as p, (b 1%nat) as q. intros p q Hb.
        pose proof (sq_pos (0 - 1 - (0 + 1 * p + (1 - 0) * q))). pose proof (sq_pos (1 - 0 - (0 + 0 * p + (0 - 1) * q))). pose proof (sq_pos (1 - 1 - (0 + 1 * p + (1 - 0) * q))).
        pose proof (sq_pos (2 * p + 2 * q + 1)). lra. }
    assert (A1 : exists e, adf_at inv_small X y 3 "no_trend" 0 1 = Ok e).
    { unfold adf_at. destruct (rows_meq _ _ _ _ X y pos 1 3 Hxy ltac:(cbn; lia)) as [MX _].
      assert (HX : List.length X = 2) by apply Hxy.
      assert (exists N, inverse_of (gram (rows_of X 1 3)) N) as HN.
      { assert (exists N, inverse_of (gram (X_of "no_trend" 1 false (fun i => nth i (map snd ex_square) 0%R) 1 3)) N) as [N HN].
        { apply det_inverse; [reflexivity|]. cbn. lra. }
        exists N. exact (gram_meq _ _ N (meq_sym _ _ MX) HN). }
      destruct (proj2 (ols_defined inv_small (rows_of X 1 3) (y_of y 1 3) inv_small_sound ltac:(cbn [rows_of nc]; rewrite HX; exact inv_small_complete_2) eq_refl) HN) as (b & V & EV).
      rewrite EV. cbn [bind].
      destruct (ols_unfold inv_small inv_small_sound (rows_of X 1 3) (y_of y 1 3) b V eq_refl eq_refl EV) as (N' & HN' & _ & _ & _ & HV).
      assert (V 0 0 = NaN) as ->.
      { rewrite HV. rewrite (OLS_Short.square_exact _ N' HN' (y_of y 1 3) _ ltac:(cbn [rows_of nr nc]; lia) (ols_normal inv_small inv_small_sound (rows_of X 1 3) (y_of y 1 3) b V eq_refl eq_refl EV)).
        cbn [rows_of nr nc]. rewrite HX. rewrite Rminus_diag_eq by reflexivity.
        assert (ediv (Fin 0%R) (Fin 0%R) = NaN) as ->; [|reflexivity].
        unfold ediv, asign. cbn [aeqb altb Arith_R a0]. destruct (Req_EM_T 0 0); [|lra]. destruct (Rlt_dec 0 0); [lra|reflexivity]. }
      cbn [pow_half esqrt py_div bind ediv]. eexists. reflexivity. }
    destruct A0 as [e0 A0], A1 as [e1 A1]. unfold get_sadf_at_t. cbn [Nat.add Nat.sub seq mapM bind]. rewrite A0. cbn [bind]. rewrite A1. cbn [bind np_max].
    eexists. reflexivity. }
  rewrite H. f_equal.
  destruct (c46_short inv_small inv_small_sound "no_trend" 1 2 false 0 Hv ex_square out ltac:(lia) ltac:(cbn; lia) H) as [HF _].
  destruct (run_inv inv_small "no_trend" 1 2 false 0 Hv ex_square out H) as (X & y & pos & sadf & Hxy & _ & Em & Eo).
  pose proof (run_length inv_small "no_trend" 1 2 false 0 ex_square X y pos sadf Hxy Em) as HL. rewrite <- Eo in HL. cbn in HL.
  destruct (run_nth inv_small "no_trend" 1 2 false 0 ex_square X y pos sadf 0 Hxy Em ltac:(cbn; lia)) as (e & _ & Hn). rewrite <- Eo in Hn.
  destruct out as [|p [|p' out]]; try discriminate. inversion HF; subst. cbn in Hn. destruct p. cbn in *. congruence.
Qed.
