(** Proofs for the supremum augmented Dickey-Fuller test. *)
From Coq Require Import Reals Lra String.
From Verif Require Import PreludeFacts Series Boot_Proofs Label_Proofs2 OLS_Model OLS_Spec OLS_Proofs OLS_Proofs2 Break_Model Break_Spec OLS_TStat.
Local Open Scope nat_scope.

Lemma nth_map_seq (f : nat -> R) a m r : r < m -> nth r (map f (seq a m)) 0%R = f (a + r).
Proof. intros H. apply nth_error_nth. rewrite nth_error_map, nth_error_seq' by auto. reflexivity. Qed.

Lemma filter_ge_seq k n : forall a, filter (fun p => Nat.leb k p) (seq a n) = seq (Nat.max a k) (a + n - Nat.max a k).
Proof.
  induction n as [|n IH]; intros a; cbn [seq filter].
  - replace (a + 0 - Nat.max a k) with 0 by lia. reflexivity.
  - rewrite IH. destruct (Nat.leb_spec k a).
    + replace (Nat.max (S a) k) with (S a) by lia. replace (Nat.max a k) with a by lia.
      replace (S a + n - S a) with n by lia. replace (a + S n - a) with (S n) by lia. reflexivity.
    + replace (Nat.max (S a) k) with (Nat.max a k) by lia. f_equal. lia.
Qed.

Lemma lag_rows_seq n lags : 1 <= lags -> lag_rows n lags = seq lags (n - 1 - lags).
Proof.
  intros H. unfold lag_rows. destruct lags as [|k]; [lia|].
  rewrite (filter_ext _ (fun p => Nat.leb (S k) p)).
  - rewrite filter_ge_seq. f_equal; lia.
  - intros p. destruct (Nat.leb_spec (S k) p) as [Hp|Hp].
    + apply forallb_forall. intros l Hl. apply in_seq in Hl. apply Nat.leb_le. lia.
    + apply Bool.not_true_is_false. intros Hf. rewrite forallb_forall in Hf. specialize (Hf (S k)). rewrite in_seq, Nat.leb_le in Hf. lia.
Qed.

Section Std.
  Variables (ys : list R) (lags : nat).
  Hypothesis Hl : 1 <= lags.
  Let n := List.length ys.
  Let x := fun i => nth i ys 0%R.
  Let m := n - 1 - lags.

  Lemma std_front rest : forallb (fun c => negb (col_eqb (fst c) YLagged)) rest = true ->
    to_front YLagged ((lag_df ys lags ++ [(YLagged, map (fun p => nth p ys 0%R) (lag_rows n lags))]) ++ rest) =
    (YLagged, map (fun p => nth p ys 0%R) (seq lags m)) :: lag_df ys lags ++ rest.
  Proof.
    intros Hr. unfold to_front. rewrite !filter_app. rewrite lag_rows_seq by auto. fold m.
    assert (filter (fun c => col_eqb (fst c) YLagged) (lag_df ys lags) = []) as ->.
    { unfold lag_df. induction (seq 1 lags) as [|l ls IH]; auto. }
    assert (filter (fun c => negb (col_eqb (fst c) YLagged)) (lag_df ys lags) = lag_df ys lags) as ->.
    { unfold lag_df. induction (seq 1 lags) as [|l ls IH]; auto. cbn. now rewrite IH. }
    assert (filter (fun c : col * list R => col_eqb (fst c) YLagged) rest = [] /\ filter (fun c : col * list R => negb (col_eqb (fst c) YLagged)) rest = rest) as [-> ->].
    { induction rest as [|c rest IH]; auto. cbn in Hr |- *. apply andb_prop in Hr as [H1 H2]. destruct (col_eqb (fst c) YLagged); [discriminate|].
      cbn. destruct (IH H2) as [-> ->]. auto. }
    cbn [filter fst col_eqb negb app]. now rewrite app_nil_r.
  Qed.

  Lemma std_row r : r < m ->
    map (fun c => nth r (snd c) 0%R) (lag_df ys lags) = map (fun l => Rminus (x (lags + 1 + r - l)) (x (lags + 1 + r - l - 1))) (seq 1 lags).
  Proof.
    intros Hr. unfold lag_df. rewrite map_map. apply map_ext_in. intros l Hin. apply in_seq in Hin. cbn [snd].
    rewrite lag_rows_seq by auto. fold n m. rewrite nth_map_seq by auto. unfold diff_at, x. f_equal; f_equal; lia.
  Qed.
  Lemma std_first r : r < m -> nth r (map (fun p => nth p ys 0%R) (seq lags m)) 0%R = x (lags + 1 + r - 1).
  Proof. intros Hr. rewrite nth_map_seq by auto. unfold x. f_equal. lia. Qed.
  Lemma std_y r : r < m -> nth r (map (diff_at ys) (seq lags m)) 0%R = Rminus (x (lags + 1 + r)) (x (lags + 1 + r - 1)).
  Proof. intros Hr. rewrite nth_map_seq by auto. unfold diff_at, x. f_equal; f_equal; lia. Qed.
End Std.

Definition xy_ok (ys : list R) (model : string) (lags : nat) (const : bool) (X : frame) (y : list R) (pos : list nat) : Prop :=
  let x := fun i => nth i ys 0%R in
  let m := n_rows model lags (List.length ys) in
  List.length y = m /\ pos = map (row_pos model lags) (seq 0 m) /\ List.length X = n_cols model lags const /\
  forall r, r < m -> map (fun c => nth r (snd c) 0%R) X = regressors model lags const x r /\ nth r y 0%R = response model lags x r.

Lemma log_series_ok ys y : log_series ys = Ok y -> y = map ln ys /\ Forall (fun v => (0 < v)%R) ys.
Proof.
  unfold log_series. revert y. induction ys as [|v ys IH]; intros y; cbn [mapM].
  - intros [= <-]. auto.
  - destruct (Rlt_dec 0 v); cbn [bind]; [|discriminate]. destruct (mapM _ ys) as [l|] eqn:E; cbn [bind]; [|discriminate].
    intros [= <-]. destruct (IH l eq_refl) as [-> H]. auto.
Qed.
Lemma log_series_iff ys : (exists y, log_series ys = Ok y) <-> Forall (fun v => (0 < v)%R) ys.
Proof.
  split; [intros [y H]; now apply log_series_ok in H|]. induction 1 as [|v ys Hv Hys [l IH]]; [now exists []|].
  exists (ln v :: l). unfold log_series in *. cbn [mapM]. destruct (Rlt_dec 0 v); [|lra]. cbn [bind]. now rewrite IH.
Qed.
Lemma nth_map_ln ys r : r < List.length ys -> nth r (map ln ys) 0%R = ln (nth r ys 0%R).
Proof. intros H. rewrite (nth_indep _ 0%R (ln 0%R)) by now rewrite map_length. apply map_nth. Qed.

Lemma col_row_trend m r : r < m -> nth r (trend_col m) 0%R = INR (r + 1).
Proof. intros. unfold trend_col. rewrite nth_map_seq by auto. f_equal. lia. Qed.
Lemma col_row_square m r : r < m -> nth r (square_col m) 0%R = (INR (r + 1) * INR (r + 1))%R.
Proof. intros. unfold square_col. rewrite nth_map_seq by auto. replace (1 + r) with (r + 1) by lia. reflexivity. Qed.
Lemma col_row_const m r : r < m -> nth r (const_col m) 0%R = 1%R.
Proof. intros. unfold const_col. now rewrite nth_map_seq by auto. Qed.
Lemma col_row_log m r : r < m -> nth r (map (fun k => ln (INR k)) (seq 1 m)) 0%R = ln (INR (r + 1)).
Proof. intros. rewrite nth_map_seq by auto. now rewrite Nat.add_comm. Qed.

Lemma pos_std lags m : map (fun p => p + 1) (seq lags m) = map (fun r => lags + 1 + r) (seq 0 m).
Proof.
  assert (forall a, map (fun p => p + 1) (seq (lags + a) m) = map (fun r => lags + 1 + r) (seq a m)) as H.
  { induction m as [|m IH]; intros a; cbn; auto. f_equal; [lia|]. rewrite <- IH. do 2 f_equal. lia. }
  specialize (H 0). now rewrite Nat.add_0_r in H.
Qed.
Lemma seq_id n : seq 0 n = map (fun r => r) (seq 0 n).
Proof. now rewrite map_id. Qed.

Ltac std_case := 
  match goal with H : Ok _ = Ok _ |- _ => injection H as <- <- <- end.

Lemma get_X_y_ok ys model lags const X y pos : valid model lags -> get_X_y ys model lags const = Ok (X, y, pos) ->
  xy_ok ys model lags const X y pos.
Proof.
  intros Hv H. unfold get_X_y in H. unfold valid, is_standard, is_martingale in Hv.
  destruct (String.eqb_spec model "no_trend") as [->|N1].
  { destruct Hv as [[_ Hl]|Hv]; [|discriminate]. unfold standard_spec in H.
    rewrite (std_front ys lags Hl) in H by (destruct const; reflexivity).
    rewrite map_length, (lag_rows_seq _ _ Hl), seq_length in H.
    set (m := List.length ys - 1 - lags) in *.
    assert (X = (YLagged, map (fun p => nth p ys 0%R) (seq lags m)) :: lag_df ys lags ++ (if const then [(Const, const_col m)] else [])) as -> by congruence.
    assert (y = map (diff_at ys) (seq lags m)) as -> by congruence.
    assert (pos = map (fun p => p + 1) (seq lags m)) as -> by congruence. clear H.
    split; [|split; [|split]].
    - now rewrite map_length, seq_length.
    - apply pos_std.
    - unfold n_cols, regressors. cbn [String.eqb]. cbn. rewrite !app_length. unfold lag_df. rewrite !map_length. destruct const; reflexivity.
    - intros r Hr. change (n_rows "no_trend" lags (List.length ys)) with m in Hr. split; [|exact (std_y ys lags Hl r Hr)].
      cbn [map snd]. subst m. rewrite map_app, (std_row ys lags Hl r Hr), (std_first ys lags Hl r Hr).
      unfold regressors. cbn [String.eqb Ascii.eqb Bool.eqb app]. change (row_pos "no_trend" lags r) with (lags + 1 + r). f_equal. f_equal.
      destruct const; cbn [map snd]; auto. now rewrite col_row_const. }
  destruct (String.eqb_spec model "linear") as [->|N2].
  { destruct Hv as [[_ Hl]|Hv]; [|discriminate]. unfold standard_spec in H.
    rewrite (std_front ys lags Hl) in H by (destruct const; reflexivity).
    rewrite map_length, (lag_rows_seq _ _ Hl), seq_length in H.
    set (m := List.length ys - 1 - lags) in *.
    assert (X = (YLagged, map (fun p => nth p ys 0%R) (seq lags m)) :: lag_df ys lags ++ ([(Trend, trend_col m)] ++ if const then [(Const, const_col m)] else [])) as -> by congruence.
    assert (y = map (diff_at ys) (seq lags m)) as -> by congruence.
    assert (pos = map (fun p => p + 1) (seq lags m)) as -> by congruence. clear H.
    split; [|split; [|split]].
    - now rewrite map_length, seq_length.
    - apply pos_std.
    - unfold n_cols, regressors. cbn. rewrite !app_length. unfold lag_df. rewrite !map_length. destruct const; reflexivity.
    - intros r Hr. change (n_rows "linear" lags (List.length ys)) with m in Hr. split; [|exact (std_y ys lags Hl r Hr)].
      cbn [map snd]. subst m. rewrite !map_app, (std_row ys lags Hl r Hr), (std_first ys lags Hl r Hr).
      unfold regressors. cbn [String.eqb Ascii.eqb Bool.eqb app]. change (row_pos "linear" lags r) with (lags + 1 + r). f_equal. f_equal.
      cbn [map snd app]. rewrite (col_row_trend _ r Hr). f_equal.
      destruct const; cbn [map snd]; auto. now rewrite col_row_const. }
  destruct (String.eqb_spec model "quadratic") as [->|N3].
  { destruct Hv as [[_ Hl]|Hv]; [|discriminate]. unfold standard_spec in H.
    rewrite (std_front ys lags Hl) in H by (destruct const; reflexivity).
    rewrite map_length, (lag_rows_seq _ _ Hl), seq_length in H.
    set (m := List.length ys - 1 - lags) in *.
    assert (X = (YLagged, map (fun p => nth p ys 0%R) (seq lags m)) :: lag_df ys lags ++ ([(Trend, trend_col m); (QuadTrend, square_col m)] ++ if const then [(Const, const_col m)] else [])) as -> by congruence.
    assert (y = map (diff_at ys) (seq lags m)) as -> by congruence.
    assert (pos = map (fun p => p + 1) (seq lags m)) as -> by congruence. clear H.
    split; [|split; [|split]].
    - now rewrite map_length, seq_length.
    - apply pos_std.
    - unfold n_cols, regressors. cbn. rewrite !app_length. unfold lag_df. rewrite !map_length. destruct const; reflexivity.
    - intros r Hr. change (n_rows "quadratic" lags (List.length ys)) with m in Hr. split; [|exact (std_y ys lags Hl r Hr)].
      cbn [map snd]. subst m. rewrite !map_app, (std_row ys lags Hl r Hr), (std_first ys lags Hl r Hr).
      unfold regressors. cbn [String.eqb Ascii.eqb Bool.eqb app]. change (row_pos "quadratic" lags r) with (lags + 1 + r). f_equal. f_equal.
      cbn [map snd app]. rewrite (col_row_trend _ r Hr), (col_row_square _ r Hr). f_equal. f_equal.
      destruct const; cbn [map snd]; auto. now rewrite col_row_const. }
  destruct (String.eqb_spec model "sm_poly_1") as [->|N4].
  { injection H as <- <- <-. cbn -[trend_col square_col const_col INR ln Rmult nth seq]. split; [reflexivity|]. split; [apply seq_id|]. split; [reflexivity|]. intros r Hr. cbn [map snd].
    rewrite col_row_trend, col_row_square, col_row_const by auto. auto. }
  destruct (String.eqb_spec model "sm_poly_2") as [->|N5].
  { destruct (log_series ys) as [l|] eqn:El; cbn [bind] in H; [|discriminate]. apply log_series_ok in El as [-> _]. injection H as <- <- <-.
    cbn -[trend_col square_col const_col INR ln Rmult nth seq]. split; [apply map_length|]. split; [apply seq_id|]. split; [reflexivity|]. intros r Hr. cbn [map snd].
    rewrite col_row_trend, col_row_square, col_row_const, nth_map_ln by auto. auto. }
  destruct (String.eqb_spec model "sm_exp") as [->|N6].
  { destruct (log_series ys) as [l|] eqn:El; cbn [bind] in H; [|discriminate]. apply log_series_ok in El as [-> _]. injection H as <- <- <-.
    cbn -[trend_col square_col const_col INR ln Rmult nth seq]. split; [apply map_length|]. split; [apply seq_id|]. split; [reflexivity|]. intros r Hr. cbn [map snd].
    rewrite col_row_trend, col_row_const, nth_map_ln by auto. auto. }
  destruct (String.eqb_spec model "sm_power") as [->|N7]; [|discriminate].
  destruct (log_series ys) as [l|] eqn:El; cbn [bind] in H; [|discriminate]. apply log_series_ok in El as [-> _]. injection H as <- <- <-.
  cbn -[trend_col square_col const_col INR ln Rmult nth seq]. split; [apply map_length|]. split; [apply seq_id|]. split; [reflexivity|]. intros r Hr. cbn [map snd].
  rewrite col_row_const, nth_map_ln by auto.
  assert (nth r (map (fun k => ln (INR k)) (seq 1 (List.length ys))) 0%R = ln (INR (r + 1))) as -> by now apply col_row_log. auto.
Qed.
