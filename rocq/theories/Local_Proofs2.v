(** Return weights depend only on the rows from just before the label to its end. *)
From Coq Require Import Reals Lia Lra Permutation.
From Verif Require Import Prelude PreludeFacts Series Boot_Spec Boot_Proofs Weights_Model Weights_Spec Weights_Proofs2 Local_Spec.
Local Open Scope nat_scope.

Lemma filter_none {T} (p : T -> bool) l : (forall x, In x l -> p x = false) -> filter p l = [].
Proof. induction l as [|x l IH]; intros H; [reflexivity|]. cbn. rewrite (H x) by (now left). apply IH. intros y Hy. apply H. now right. Qed.
Lemma div_lt a b : before_ms a b -> (a < b)%Z.
Proof. unfold before_ms. intros H. destruct (Z_lt_le_dec a b) as [|Hle]; [assumption|]. apply (Z.div_le_mono b a 1000000) in Hle; lia. Qed.

Section Rows.
  Variables (early mid later : list price_row) (s e : Z).
  Notation all := (early ++ mid ++ later).
  Hypothesis (Horder : forall r, In r all -> (start_of r <= end_of r)%Z).
  Hypothesis (Hearly : forall r, In r early -> before_ms (end_of r) s).
  Hypothesis (Hlater : forall r, In r later -> before_ms e (start_of r)).
  Hypothesis (Hfirst : forall r, nth_error mid 0 = Some r -> early <> [] -> before_ms (start_of r) s).

  Let inside (rows : list price_row) (k : nat) : bool := match nth_error rows k with Some b => within_ms s e (start_of b) | None => false end.

  Lemma within_spec t : within_ms s e t = true -> ~ before_ms t s /\ ~ before_ms e t.
  Proof. unfold within_ms, before_ms. rewrite andb_true_iff, !Z.leb_le. lia. Qed.
  Lemma nth_mid k : k < length mid -> nth_error all (length early + k) = nth_error mid k.
  Proof. intros H. rewrite nth_error_app2 by lia. replace (length early + k - length early) with k by lia. now rewrite nth_error_app1. Qed.

  Lemma positions : filter (inside all) (seq 0 (length all)) = map (fun k => length early + k) (filter (inside mid) (seq 0 (length mid))).
  Proof.
    rewrite !app_length, !seq_app, !filter_app. cbn [plus].
    rewrite (filter_none (inside all) (seq 0 (length early))), (filter_none (inside all) (seq (length early + length mid) (length later))).
    - cbn [app]. rewrite app_nil_r.
      assert (E : seq (length early) (length mid) = map (fun k => length early + k) (seq 0 (length mid))).
      { generalize (length mid) as n. generalize (length early) as a. clear. intros a n. rewrite <- (Nat.add_0_r a) at 1. generalize 0 as b. induction n as [|n IH]; intros b; [reflexivity|].
        cbn. f_equal. rewrite <- Nat.add_succ_r. apply IH. }
      rewrite E. assert (G : forall k, In k (seq 0 (length mid)) -> inside all (length early + k) = inside mid k).
      { intros k Hk. apply in_seq in Hk. unfold inside. rewrite nth_mid by lia. reflexivity. }
      revert G. generalize (seq 0 (length mid)) as l. clear. induction l as [|k l IH]; intros G; [reflexivity|]. cbn [map filter]. rewrite (G k) by (now left).
      destruct (inside mid k); cbn [map]; rewrite IH by (intros x Hx; apply G; now right); reflexivity.
    - intros k Hk. apply in_seq in Hk. unfold inside. destruct (nth_error all k) as [r|] eqn:E; [|reflexivity]. rewrite app_assoc, nth_error_app2 in E by (rewrite app_length; lia).
      apply nth_error_In in E. apply Hlater in E. destruct (within_ms s e (start_of r)) eqn:W; [|reflexivity]. now apply within_spec in W.
    - intros k Hk. apply in_seq in Hk. unfold inside. destruct (nth_error all k) as [r|] eqn:E; [|reflexivity]. rewrite nth_error_app1 in E by lia.
      apply nth_error_In in E. destruct (within_ms s e (start_of r)) eqn:W; [|reflexivity]. apply within_spec in W. destruct W as [W _]. exfalso. apply W.
      specialize (Horder r (in_or_app _ _ _ (or_introl E))). apply Hearly in E. unfold before_ms in *. apply (Z.div_le_mono _ _ 1000000) in Horder; lia.
  Qed.

  Lemma count_zero {T} (p : T -> bool) l : (forall x, In x l -> p x = false) -> count p l = 0.
  Proof. intros H. unfold count. now rewrite filter_none. Qed.

  Lemma contributions k : inside mid k = true -> contribution all (length early + k) = contribution mid k.
  Proof.
    intros Hin. unfold inside in Hin. destruct (nth_error mid k) as [r|] eqn:Er; [|discriminate].
    assert (Hk : k < length mid) by (apply nth_error_Some; congruence).
    unfold contribution. rewrite nth_mid, Er by exact Hk.
    assert (El : log_return all (length early + k) = log_return mid k).
    { destruct k as [|k].
      - cbn [log_return]. destruct early as [|r0 ea] eqn:Ee; [reflexivity|]. exfalso.
        assert (B : before_ms (start_of r) s) by (apply (Hfirst r Er); discriminate). apply within_spec in Hin. tauto.
      - rewrite Nat.add_succ_r. cbn [log_return]. rewrite nth_mid by lia. rewrite <- Nat.add_succ_r. rewrite nth_mid by exact Hk. reflexivity. }
    rewrite El. destruct (log_return mid k) as [x|]; [|reflexivity]. do 2 f_equal.
    unfold labels_alive. rewrite !map_app, !count_app. apply within_spec in Hin. destruct Hin as [W1 W2].
    rewrite (count_zero _ (map fst early)), (count_zero _ (map fst later)); [now rewrite Nat.add_0_r| |].
    - intros [a b] Hx. apply in_map_iff in Hx. destruct Hx as (r' & E & Hr'). apply Hlater in Hr'. unfold start_of in Hr'. rewrite E in Hr'. cbn [fst] in Hr'.
      unfold alive. cbn [fst snd]. apply andb_false_iff. left. apply Z.leb_gt. apply div_lt. unfold before_ms in *. lia.
    - intros [a b] Hx. apply in_map_iff in Hx. destruct Hx as (r' & E & Hr'). apply Hearly in Hr'. unfold end_of in Hr'. rewrite E in Hr'. cbn [snd] in Hr'.
      unfold alive. cbn [fst snd]. apply andb_false_iff. right. apply Z.leb_gt. apply div_lt. unfold before_ms in *. lia.
  Qed.

  Lemma sums : map (contribution all) (filter (inside all) (seq 0 (length all))) = map (contribution mid) (filter (inside mid) (seq 0 (length mid))).
  Proof.
    rewrite positions, map_map. apply map_ext_in. intros k Hk. apply filter_In in Hk. now apply contributions.
  Qed.
End Rows.

Theorem return_weights_local early mid later out out' i r :
  let all := early ++ mid ++ later in
  (forall r' p, In r' all -> snd r' = Some p -> (0 < p)%R) -> (forall r', In r' all -> (start_of r' <= end_of r')%Z) ->
  returns_transform (map to_row all) = Ok out -> returns_transform (map to_row mid) = Ok out' ->
  nth_error mid i = Some r ->
  (forall r', In r' early -> before_ms (end_of r') (start_of r)) -> (forall r', In r' later -> before_ms (end_of r) (start_of r')) ->
  (forall r', nth_error mid 0 = Some r' -> early <> [] -> before_ms (start_of r') (start_of r)) ->
  nth_error out (length early + i) = nth_error out' i.
Proof.
  intros all Hp Ho E E' Hi He Hl Hf.
  destruct (c20 all Hp Ho out E) as [_ V].
  assert (Hp' : forall r' p, In r' mid -> snd r' = Some p -> (0 < p)%R) by (intros r' p H; apply Hp; unfold all; rewrite !in_app_iff; tauto).
  assert (Ho' : forall r', In r' mid -> (start_of r' <= end_of r')%Z) by (intros r' H; apply Ho; unfold all; rewrite !in_app_iff; tauto).
  destruct (c20 mid Hp' Ho' out' E') as [_ V'].
  rewrite (V' i r Hi), (V (length early + i) r).
  - do 5 f_equal. apply (sums early mid later (start_of r) (end_of r)); assumption.
  - unfold all. rewrite nth_mid; [exact Hi|]. apply nth_error_Some. intros Hx. pose proof (eq_trans (eq_sym Hi) Hx) as D. discriminate D.
Qed.

(** Rows in another order have other returns. *)
Definition c92_rows : list price_row := [(1000000, 3000000, Some 1%R); (2000000, 3000000, Some 2%R); (4000000, 5000000, Some 4%R)]%Z.
Definition c92_shuffled : list price_row := [(2000000, 3000000, Some 2%R); (1000000, 3000000, Some 1%R); (4000000, 5000000, Some 4%R)]%Z.
Theorem return_weights_shuffled :
  ~ (forall rows rows' out out' t w w', Permutation rows rows' -> (forall r p, In r rows -> snd r = Some p -> (0 < p)%R) -> (forall r, In r rows -> (start_of r <= end_of r)%Z) ->
     returns_transform (map to_row rows) = Ok out -> returns_transform (map to_row rows') = Ok out' -> In (t, w) out -> In (t, w') out' -> w = w').
Proof.
  intros H.
  assert (P : Permutation c92_rows c92_shuffled) by constructor.
  assert (Hp : forall r p, In r c92_rows -> snd r = Some p -> (0 < p)%R).
  { intros r p Hr. cbn in Hr. repeat (destruct Hr as [<-|Hr]; [cbn; intros E; injection E as <-; lra|]). destruct Hr. }
  assert (Ho : forall r, In r c92_rows -> (start_of r <= end_of r)%Z).
  { intros r Hr. cbn in Hr. repeat (destruct Hr as [<-|Hr]; [cbn; lia|]). destruct Hr. }
  assert (Hp' : forall r p, In r c92_shuffled -> snd r = Some p -> (0 < p)%R) by (intros r p Hr; apply Hp, (Permutation_in _ (Permutation_sym P)), Hr).
  assert (Ho' : forall r, In r c92_shuffled -> (start_of r <= end_of r)%Z) by (intros r Hr; apply Ho, (Permutation_in _ (Permutation_sym P)), Hr).
  assert (S1 : exists out, returns_transform (map to_row c92_rows) = Ok out) by (apply c20_succeeds; eexists; cbn; reflexivity).
  assert (S2 : exists out, returns_transform (map to_row c92_shuffled) = Ok out) by (apply c20_succeeds; eexists; cbn; reflexivity).
  destruct S1 as [out E], S2 as [out' E'].
  destruct (c20 c92_rows Hp Ho out E) as [_ V]. destruct (c20 c92_shuffled Hp' Ho' out' E') as [_ V'].
  specialize (V 2 _ eq_refl). specialize (V' 2 _ eq_refl). apply nth_error_In in V, V'.
  change (In (4000000%Z, Fin (Rabs (rsum (map (contribution c92_rows) [2])))) out) in V.
  change (In (4000000%Z, Fin (Rabs (rsum (map (contribution c92_shuffled) [2])))) out') in V'.
  pose proof (H _ _ _ _ _ _ _ P Hp Ho E E' V V') as D. injection D as D. clear -D.
  cbn [map rsum fold_right] in D. unfold contribution, log_return in D. cbn [nth_error c92_rows c92_shuffled] in D.
  fold c92_rows in D. fold c92_shuffled in D.
  assert (L1 : labels_alive c92_rows (start_of (4000000, 5000000, Some 4%R)%Z) = 1) by (vm_compute; reflexivity).
  assert (L2 : labels_alive c92_shuffled (start_of (4000000, 5000000, Some 4%R)%Z) = 1) by (vm_compute; reflexivity).
  rewrite L1, L2 in D. change (INR 1) with 1%R in D. rewrite ln_1 in D.
  assert (L4 : ln 4 = (ln 2 + ln 2)%R) by (rewrite <- ln_mult by lra; f_equal; lra).
  assert (L0 : (0 < ln 2)%R) by (rewrite <- ln_1; apply ln_increasing; lra).
  rewrite L4 in D. rewrite !Rabs_pos_eq in D by lra. lra.
Qed.
