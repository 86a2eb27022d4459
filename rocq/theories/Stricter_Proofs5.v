(** Trend scanning and SADF. *)
From Coq Require Import Reals Lra Lia ZArith String.
From Verif Require Import PreludeFacts Series OLS_Model OLS_Spec OLS_Proofs Trend_Model Trend_Spec Trend_Proofs Trend_Proofs2 Trend_Proofs3
  Break_Model Break_Spec OLS_TStat OLS_Short Break_Proofs Break_Proofs2 Break_Proofs3 Break_Proofs4 Break_Proofs5 Break_Proofs6 Stricter_Spec.
Local Open Scope nat_scope.

Lemma best_more y k m L w m' L' w' : m' <= m -> L <= L' -> best_window y k m L w -> best_window y k m' L' w' ->
  (Rabs (t_of y k w) <= Rabs (t_of y k w'))%R.
Proof. intros A B (C & _ & _) (_ & D & _). apply D. lia. Qed.
Lemma f2_len {A B} (P : A -> B -> Prop) l r : Forall2 P l r -> List.length l = List.length r.
Proof. induction 1; cbn; congruence. Qed.
Lemma f2_nth {A B} (P : A -> B -> Prop) l r : Forall2 P l r -> forall i b, nth_error r i = Some b -> exists a, nth_error l i = Some a /\ P a b.
Proof. induction 1; intros [|i] b' N; try discriminate; cbn in *; [injection N as <-; eauto|eauto]. Qed.
Lemma c101_trend : forall inv, inv_sound inv -> inv_complete 2 inv -> forall cfg cfg', t_step cfg = 1 -> t_step cfg' = 1 ->
  3 <= t_min cfg < t_window cfg -> 3 <= t_min cfg' < t_window cfg' -> t_min cfg' <= t_min cfg -> t_window cfg <= t_window cfg' ->
  forall junk events y rows rows', increasingZ (map fst y) -> snd (transform inv junk cfg events y) = Ok rows ->
  snd (transform inv junk cfg' events y) = Ok rows' ->
  List.length rows = List.length rows' /\
  forall i r r' t', nth_error rows i = Some r -> nth_error rows' i = Some r' -> tr_t r' = Fin t' ->
    tr_start r = tr_start r' /\ exists t, tr_t r = Fin t /\ (Rabs t <= Rabs t')%R.
Proof.
  intros inv IS IC cfg cfg' S1 S2 R1 R2 M W junk events y rows rows' I O O'.
  pose proof (c32 inv IS IC cfg S1 R1 junk events y rows I O) as F. pose proof (c32 inv IS IC cfg' S2 R2 junk events y rows' I O') as F'.
  split; [rewrite <- (f2_len _ _ _ F), <- (f2_len _ _ _ F'); reflexivity|]. intros i r r' t' N N' T.
  destruct (f2_nth _ _ _ F i r N) as (a & A & k & p0 & K & St & C). destruct (f2_nth _ _ _ F' i r' N') as (a' & A' & k' & p0' & K' & St' & C').
  rewrite A in A'. injection A' as <-. split; [congruence|]. assert (k' = k) as ->.
  { assert (E : nth_error (map fst y) k = Some a) by (rewrite nth_error_map, K; reflexivity). assert (E' : nth_error (map fst y) k' = Some a) by (rewrite nth_error_map, K'; reflexivity).
    apply (NoDup_nth_error (map fst y)); [now apply increasingZ_NoDup| |congruence]. apply nth_error_Some. congruence. }
  destruct C' as [(Lk & w' & te' & pe' & B' & _ & _ & T' & _)|(_ & _ & T' & _)]; [|congruence]. rewrite T in T'. injection T' as ->.
  destruct C as [(_ & w & te & pe & B & _ & _ & T2 & _)|(Lk2 & _)]; [|lia]. exists (t_of y k w). split; [exact T2|]. now apply (best_more y k (t_min cfg) (t_window cfg) w (t_min cfg') (t_window cfg') w').
Qed.

Lemma cols_pos model lags const : valid model lags -> 0 < n_cols model lags const.
Proof.
  intros V. unfold n_cols, regressors. cbv zeta. repeat match goal with |- context[if ?b then _ else _] => destruct b end; cbn [List.length]; try lia.
  all: rewrite ?app_length; cbn [List.length]; lia.
Qed.
Lemma stat_unique model lags const s st stop u t2 : valid model lags -> t_stat (X_of model lags const (vals s) st stop) (Y_of model lags (vals s) st stop) u ->
  t_stat (X_of model lags const (vals s) st stop) (Y_of model lags (vals s) st stop) t2 -> u = t2.
Proof. intros V. apply t_stat_unique. exact (cols_pos model lags const V). Qed.
(** A shorter minimum length. *)
Lemma c101_sadf : forall inv, inv_sound inv -> forall model lags m m' const phi s out out', valid model lags -> n_cols model lags const < m -> m <= m' ->
  sadf_run inv model lags m const phi s = Ok out -> sadf_run inv model lags m' const phi s = Ok out' ->
  List.length out' + (m' - m) = List.length out /\
  forall q t x, nth_error out' q = Some (t, x) -> exists v v', x = Fin v' /\ nth_error out (q + (m' - m)) = Some (t, Fin v) /\ (v' <= v)%R.
Proof.
  intros inv IS model lags m m' const phi s out out' V C L O O'. destruct (c46 inv IS model lags m const phi V s out C O) as (A1 & A2 & A3).
  destruct (c46 inv IS model lags m' const phi V s out' ltac:(lia) O') as (B1 & B2 & B3). split; [lia|]. intros q t x N.
  assert (Q : m' + q < n_rows model lags (List.length s)) by (assert (q < List.length out') by (apply nth_error_Some; congruence); lia).
  destruct (B3 q Q) as (v' & N' & (st & S1 & (u & S2 & S3)) & _). rewrite N in N'. injection N' as -> ->.
  destruct (A3 (q + (m' - m)) ltac:(lia)) as (v & N2 & _ & All). replace (m + (q + (m' - m))) with (m' + q) in * by lia.
  exists v, v'. split; [reflexivity|]. split; [exact N2|]. destruct (All st ltac:(lia)) as (u2 & (t2 & T2 & E2) & Le).
  rewrite (stat_unique model lags const s st _ u t2 V S2 T2) in S3. lra.
Qed.
(** A heavier penalty, for the martingale models. *)
Lemma penalty_mono a n phi phi' : (0 <= a)%R -> (phi <= phi')%R -> (a / Rpower (INR (n + 1)) phi' <= a / Rpower (INR (n + 1)) phi)%R.
Proof.
  intros A P. apply Rmult_le_compat_l; [exact A|]. apply Rinv_le_contravar; [unfold Rpower; apply exp_pos|].
  assert (1 <= INR (n + 1))%R by (rewrite plus_INR; pose proof (pos_INR n); cbn; lra). destruct (Req_dec (INR (n + 1)) 1) as [->|Ne].
  - unfold Rpower. rewrite ln_1, !Rmult_0_r. lra.
  - apply Rle_Rpower; lra.
Qed.
Lemma c101_sadf_penalty : forall inv, inv_sound inv -> forall model lags m const phi phi' s out out', valid model lags -> n_cols model lags const < m ->
  is_martingale model = true -> (phi <= phi')%R ->
  sadf_run inv model lags m const phi s = Ok out -> sadf_run inv model lags m const phi' s = Ok out' ->
  List.length out' = List.length out /\
  forall q t x, nth_error out' q = Some (t, x) -> exists v v', x = Fin v' /\ nth_error out q = Some (t, Fin v) /\ (v' <= v)%R.
Proof.
  intros inv IS model lags m const phi phi' s out out' V C M L O O'. destruct (c46 inv IS model lags m const phi V s out C O) as (A1 & A2 & A3).
  destruct (c46 inv IS model lags m const phi' V s out' C O') as (B1 & B2 & B3). split; [lia|]. intros q t x N.
  assert (Q : m + q < n_rows model lags (List.length s)) by (assert (q < List.length out') by (apply nth_error_Some; congruence); lia).
  destruct (B3 q Q) as (v' & N' & (st & S1 & (u & S2 & S3)) & _). rewrite N in N'. injection N' as -> ->.
  destruct (A3 q Q) as (v & N2 & _ & All). exists v, v'. split; [reflexivity|]. split; [exact N2|]. destruct (All st S1) as (u2 & (t2 & T2 & E2) & Le).
  rewrite <- (stat_unique model lags const s st _ u t2 V S2 T2) in E2. unfold code_stat in *. rewrite M in *.
  pose proof (penalty_mono (Rabs u) st phi phi' (Rabs_pos u) L). lra.
Qed.
