(** Proofs for the trend scanner: the scan. *)
From Coq Require Import Reals Lra.
From Verif Require Import PreludeFacts Series Boot_Model Boot_Proofs Boot_Proofs2 Label_Model Label_Proofs2 OLS_Model OLS_Spec OLS_Proofs
  Trend_Model Trend_Spec Trend_Proofs.
Local Open Scope nat_scope.

(** Extensionality *)
Lemma mean_ext n f g : (forall i, i < n -> f i = g i) -> mean n f = mean n g.
Proof. intros H. unfold mean. now rewrite (rsumn_ext _ _ _ H). Qed.
Lemma slope_ext n f g : (forall i, i < n -> f i = g i) -> slope n f = slope n g.
Proof. intros H. unfold slope. rewrite (mean_ext _ _ _ H). f_equal. apply rsumn_ext. intros i Hi. now rewrite (H i Hi). Qed.
Lemma rss_ext n f g : (forall i, i < n -> f i = g i) -> rss n f = rss n g.
Proof. intros H. unfold rss. apply rsumn_ext. intros i Hi. now rewrite (H i Hi), (mean_ext _ _ _ H), (slope_ext _ _ _ H). Qed.
Lemma trend_t_ext n f g : (forall i, i < n -> f i = g i) -> trend_t n f = trend_t n g.
Proof. intros H. unfold trend_t. now rewrite (slope_ext _ _ _ H), (rss_ext _ _ _ H). Qed.

Lemma nth_firstn {A} (d : A) l w i : i < w -> nth i (firstn w l) d = nth i l d.
Proof. revert w i. induction l as [|x l IH]; intros [|w] [|i] H; cbn; auto; try lia. apply IH. lia. Qed.

Lemma arange_1 a b : arange a b 1 = Ok (seq a (b - a)).
Proof.
  unfold arange. f_equal. rewrite Nat.sub_diag, Nat.add_0_r, Nat.div_1_r. generalize (b - a) as n. intros n.
  assert (forall k, map (fun k => a + k * 1) (seq k n) = seq (a + k) n) as H.
  { induction n as [|n IH]; intros k; cbn [seq map]; auto. rewrite IH. f_equal; [lia|]. f_equal. lia. }
  rewrite H. f_equal. lia.
Qed.

Lemma firstn_set_at {A} (l : list A) k t : k < length l -> firstn (S k) (set_at l k t) = firstn k l ++ [t].
Proof.
  unfold set_at. revert k. induction l as [|x l IH]; intros k Hk; cbn in Hk; [lia|]. destruct k as [|k]; [reflexivity|].
  specialize (IH k ltac:(lia)). cbn in IH |- *. f_equal. exact IH.
Qed.

Lemma fold_fill (f : nat -> result (ext R)) m c : forall k arr, length arr = k + c ->
  foldM (fun arr w => do t <- f w ;; Ok (set_at arr (w - m) t)) arr (seq (m + k) c) =
  do ts <- mapM f (seq (m + k) c) ;; Ok (firstn k arr ++ ts).
Proof.
  induction c as [|c IH]; intros k arr Hl; cbn [seq foldM mapM bind].
  - rewrite firstn_all2 by lia. now rewrite app_nil_r.
  - destruct (f (m + k)) as [t|e]; cbn [bind]; auto.
    replace (m + k - m) with k by lia.
    replace (S (m + k)) with (m + S k) by lia. rewrite IH by (rewrite set_at_length; lia).
    destruct (mapM f (seq (m + S k) c)) as [ts|]; cbn [bind]; auto. f_equal.
    assert (firstn (S k) (set_at arr k t) = firstn k arr ++ [t]) as ->.
    { apply firstn_set_at. lia. }
    now rewrite <- app_assoc.
Qed.

Lemma scan_window_1 inv junk ys m :
  scan_window inv junk ys m 1 =
  do ts <- mapM (fun w => window_t inv (firstn w ys)) (seq m (length ys - m)) ;;
  do i <- np_argmax (map eabs ts) ;; do t <- get ts i ;; Ok (t, i).
Proof.
  unfold scan_window. rewrite arange_1. cbn [bind].
  pose proof (fold_fill (fun w => window_t inv (firstn w ys)) m (length ys - m) 0 (map junk (seq 0 (length ys - m)))
    ltac:(now rewrite map_length, seq_length)) as H. rewrite Nat.add_0_r in H. rewrite H.
  destruct (mapM _ _); reflexivity.
Qed.

(** argmax *)
Lemma argmax_loop_fin l : forall best bi i, 
  let r := argmax_loop (Fin best) bi i (map Fin l) in
  (r = bi /\ forall x, In x l -> (x <= best)%R) \/
  (exists j x, r = i + j /\ nth_error l j = Some x /\ (best < x)%R /\
    forall k z, nth_error l k = Some z -> (z <= x)%R /\ (k < j -> (z < x)%R)).
Proof.
  induction l as [|x l IH]; intros best bi i; cbn [map argmax_loop is_nan].
  - left. split; auto. intros ? [].
  - cbn [eltb altb Arith_R]. destruct (Rlt_dec best x) as [Hx|Hx].
    + destruct (IH x i (S i)) as [[Hr Ha]|(j & z & Hr & Hj & Hz & Ha)].
      * right. exists 0, x. rewrite Hr. split; [lia|]. split; auto. split; auto. intros [|k] z' Hk; cbn in Hk.
        { injection Hk as <-. split; [lra|lia]. } apply nth_error_In, Ha in Hk. split; [lra|lia].
      * right. exists (S j), z. rewrite Hr. split; [lia|]. split; auto. split; [lra|]. intros [|k] z' Hk; cbn in Hk.
        { injection Hk as <-. split; intros; lra. } destruct (Ha k z' Hk). split; auto. intros. apply H0. lia.
    + destruct (IH best bi (S i)) as [[Hr Ha]|(j & z & Hr & Hj & Hz & Ha)].
      * left. split; auto. intros z [<-|Hz]; [lra|auto].
      * right. exists (S j), z. rewrite Hr. split; [lia|]. split; auto. split; [lra|]. intros [|k] z' Hk; cbn in Hk.
        { injection Hk as <-. split; intros; lra. } destruct (Ha k z' Hk). split; auto. intros. apply H0. lia.
Qed.

Lemma np_argmax_fin l : l <> [] -> exists i x, np_argmax (map Fin l) = Ok i /\ nth_error l i = Some x /\
  forall k z, nth_error l k = Some z -> (z <= x)%R /\ (k < i -> (z < x)%R).
Proof.
  destruct l as [|x l]; intros Hne; [easy|]. cbn [np_argmax map is_nan].
  destruct (argmax_loop_fin l x 0 1) as [[-> Ha]|(j & z & -> & Hj & Hz & Ha)].
  - exists 0, x. split; auto. split; auto. intros [|k] z Hk; cbn in Hk; [injection Hk as <-|apply nth_error_In, Ha in Hk]; split; try lra; lia.
  - exists (S j), z. split; auto. split; auto. intros [|k] z' Hk; cbn in Hk.
    { injection Hk as <-. split; intros; lra. } destruct (Ha k z' Hk). split; auto. intros. apply H0. lia.
Qed.

Lemma eabs_fin x : eabs (Fin x) = Fin (Rabs x).
Proof.
  cbn [eabs altb Arith_R a0 aopp]. unfold Rabs. destruct (Rlt_dec x 0), (Rcase_abs x); f_equal; lra.
Qed.

Section Scan.
  Variable inv : mat -> result mat.
  Hypothesis Hs : inv_sound inv.
  Hypothesis Hc : inv_complete 2 inv.

  Lemma window_firstn ys w : 3 <= w <= length ys ->
    let y := fun i => nth i ys 0%R in
    window_t inv (firstn w ys) = if Req_EM_T (rss w y) 0 then Err ZeroDivisionError else Ok (Fin (trend_t w y)).
  Proof.
    intros Hw y. rewrite (window_t_spec inv Hs Hc) by (rewrite firstn_length_le; lia). cbv zeta.
    rewrite firstn_length_le by lia.
    assert (E : forall i, i < w -> nth i (firstn w ys) 0%R = y i) by (intros; now apply nth_firstn).
    now rewrite (rss_ext _ _ _ E), (trend_t_ext _ _ _ E).
  Qed.

  Lemma scan_ok junk ys m : 3 <= m < length ys ->
    let y := fun i => nth i ys 0%R in
    (forall w, m <= w < length ys -> rss w y <> 0%R) ->
    exists i, scan_window inv junk ys m 1 = Ok (Fin (trend_t (m + i) y), i) /\ m + i < length ys /\
      (forall v, m <= v < length ys -> (Rabs (trend_t v y) <= Rabs (trend_t (m + i) y))%R) /\
      (forall v, m <= v < m + i -> (Rabs (trend_t v y) < Rabs (trend_t (m + i) y))%R).
  Proof.
    intros Hm y Hr. rewrite scan_window_1.
    rewrite (mapM_ok_map _ (fun w => Fin (trend_t w y))).
    2:{ intros w Hw. apply in_seq in Hw. rewrite window_firstn by lia. fold y. destruct (Req_EM_T _ 0) as [E|]; auto. now apply Hr in E; [|lia]. }
    cbn [bind]. rewrite map_map. rewrite (map_ext _ (fun w => Fin (Rabs (trend_t w y)))) by (intros; apply eabs_fin).
    rewrite <- (map_map (fun w => Rabs (trend_t w y)) Fin).
    destruct (np_argmax_fin (map (fun w => Rabs (trend_t w y)) (seq m (length ys - m)))) as (i & x & Ei & Hi & Hx).
    { destruct (length ys - m) eqn:E; [lia|discriminate]. }
    rewrite Ei. cbn [bind].
    assert (Hil : i < length ys - m) by (rewrite <- (seq_length (length ys - m) m), <- (map_length (fun w => Rabs (trend_t w y))); apply nth_error_Some; congruence).
    assert (Hn : forall k, k < length ys - m -> nth_error (map (fun w => Rabs (trend_t w y)) (seq m (length ys - m))) k = Some (Rabs (trend_t (m + k) y))).
    { intros k Hk. rewrite nth_error_map, nth_error_seq' by lia. reflexivity. }
    rewrite Hn in Hi by auto. injection Hi as <-.
    exists i. split.
    { unfold get. rewrite nth_error_map, nth_error_seq' by lia. reflexivity. }
    split; [lia|]. split; intros v Hv.
    - replace v with (m + (v - m)) by lia. apply (Hx (v - m)). apply Hn. lia.
    - replace v with (m + (v - m)) by lia. apply (Hx (v - m)). apply Hn. lia. lia.
  Qed.

  Lemma scan_straight junk ys m : 3 <= m < length ys ->
    let y := fun i => nth i ys 0%R in
    (exists w, m <= w < length ys /\ rss w y = 0%R) -> scan_window inv junk ys m 1 = Err ZeroDivisionError.
  Proof.
    intros Hm y (w & Hw & E). rewrite scan_window_1.
    assert (mapM (fun w => window_t inv (firstn w ys)) (seq m (length ys - m)) = Err ZeroDivisionError) as ->; [|reflexivity].
    assert (Hin : In w (seq m (length ys - m))) by (apply in_seq; lia).
    assert (Hall : forall v, In v (seq m (length ys - m)) -> 3 <= v <= length ys) by (intros v Hv; apply in_seq in Hv; lia).
    clear Hw. revert Hin Hall. generalize (seq m (length ys - m)) as l. induction l as [|v l IH]; intros Hin Hall; [easy|]. cbn [mapM].
    rewrite window_firstn by (apply Hall; now left). fold y. destruct (Req_EM_T (rss v y) 0) as [|N]; [reflexivity|]. cbn [bind].
    destruct Hin as [->|Hin]; [now elim N|]. rewrite IH; auto. intros. apply Hall. now right.
  Qed.
End Scan.
