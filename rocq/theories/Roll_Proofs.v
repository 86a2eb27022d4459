(** The running updates of rolling sums, means, deviations and covariances compute the aggregates of each window. *)
From Coq Require Import Reals Lra Lia.
From Verif Require Import Prelude PreludeFacts Num Series DailyVol_Model Feat_Model Roll_Model.
Local Open Scope nat_scope.

Lemma slice_split {A} (l : list A) i j k : i <= j <= k -> slice i k l = (slice i j l ++ slice j k l)%list.
Proof.
  intros H. unfold slice. replace (skipn j l) with (skipn (j - i) (skipn i l)).
  - set (m := skipn i l). replace (k - j) with ((k - i) - (j - i)) by lia. rewrite firstn_skipn_comm. replace (j - i + (k - i - (j - i))) with (k - i) by lia.
    replace (firstn (j - i) m) with (firstn (j - i) (firstn (k - i) m)) by (rewrite firstn_firstn; f_equal; lia). symmetry. apply firstn_skipn.
  - replace j with (i + (j - i)) at 2 by lia. generalize (j - i). clear. intros d. revert l. induction i as [|i IH]; intros l; [reflexivity|]. destruct l; [now rewrite !skipn_nil|]. cbn. apply IH.
Qed.
Lemma finite_vals_app a b : finite_vals (a ++ b) = (finite_vals a ++ finite_vals b)%list.
Proof. unfold finite_vals. apply flat_map_app. Qed.

Section Generic.
  Context {S : Type} (addf removef : S -> R -> S) (output : S -> ext R) (empty : S) (Rep : S -> list R -> Prop) (g : list R -> ext R) (w : nat).
  Hypothesis Hw : 0 < w.
  Hypothesis He : Rep empty [].
  Hypothesis Hadd : forall s v x, Rep s v -> Rep (addf s x) (v ++ [x]).
  Hypothesis Hrem : forall s v x, Rep s (x :: v) -> Rep (removef s x) v.
  Hypothesis Hout : forall s v, Rep s v -> output s = g v.
  Lemma rep_remove a : forall s b, Rep s (finite_vals (a ++ b)) -> Rep (fold_left (if_finite removef) a s) (finite_vals b).
  Proof. induction a as [|[x| | |] a IH]; intros s b H; cbn [fold_left if_finite]; [exact H|apply IH, Hrem; exact H|apply IH; exact H..]. Qed.
  Lemma rep_add a : forall s b, Rep s (finite_vals b) -> Rep (fold_left (if_finite addf) a s) (finite_vals (b ++ a)).
  Proof.
    induction a as [|x a IH]; intros s b H; cbn [fold_left]; [now rewrite app_nil_r|].
    replace (b ++ x :: a)%list with ((b ++ [x]) ++ a)%list by (rewrite <- app_assoc; reflexivity). apply IH. rewrite finite_vals_app.
    destruct x; cbn; [now apply Hadd|now rewrite app_nil_r..].
  Qed.
  Definition previous (i : nat) : nat := match i with 0 => 0 | Datatypes.S j => start w j end.
  Lemma loop_spec l : forall n i s, Rep s (finite_vals (slice (previous i) i l)) ->
    roll_loop (if_finite addf) (if_finite removef) output w l s (seq i n) = map (fun i => g (finite_vals (slice (start w i) (Datatypes.S i) l))) (seq i n).
  Proof.
    induction n as [|n IH]; intros i s H; [reflexivity|]. cbn [seq roll_loop map].
    assert (P : previous i <= start w i <= i) by (unfold previous, start; destruct i; lia).
    replace (match i with 0 => [] | Datatypes.S j => slice (start w j) (start w i) l end) with (slice (previous i) (start w i) l)
      by (destruct i; [unfold previous, start; now replace (1 - w) with 0 by lia|reflexivity]).
    rewrite (slice_split l _ (start w i)) in H by exact P. apply rep_remove in H. apply (rep_add (slice i (Datatypes.S i) l)) in H.
    rewrite <- slice_split in H by lia. rewrite (Hout _ _ H). f_equal. apply IH. exact H.
  Qed.
  Lemma roll_spec l : roll (if_finite addf) (if_finite removef) output empty w l =
    map (fun i => g (finite_vals (slice (Datatypes.S i - w) (Datatypes.S i) l))) (seq 0 (length l)).
  Proof. unfold roll. apply loop_spec. exact He. Qed.
End Generic.

Local Open Scope R_scope.
Lemma lsum_snoc v x : lsum (v ++ [x]) = lsum v + x.
Proof. induction v as [|y v IH]; cbn in *; [ring|]. unfold lsum in *. rewrite IH. ring. Qed.
Lemma lsum_cons x v : lsum (x :: v) = x + lsum v. Proof. reflexivity. Qed.

Lemma roll_sum_eq w l : (0 < w)%nat -> roll_sum w l = rolling w agg_sum l.
Proof.
  intros Hw. unfold roll_sum, rolling. rewrite (roll_spec (fun s v => (S (fst s), snd s + v)) (fun s v => (Nat.pred (fst s), snd s - v)) _ _
    (fun s v => fst s = length v /\ snd s = lsum v) (fun v => if Nat.leb w (length v) then agg_sum v else NaN)); [reflexivity|exact Hw|..].
  - split; reflexivity.
  - intros s v x [A B]. cbn [fst snd]. rewrite app_length, lsum_snoc, A, B. cbn. split; [lia|reflexivity].
  - intros s v x [A B]. cbn [fst snd]. rewrite A, B. split; [reflexivity|]. rewrite lsum_cons. ring.
  - intros s v [-> ->]. reflexivity.
Qed.

Definition negatives (v : list R) : nat := length (filter (fun x => if Rlt_dec x 0 then true else false) v).
Lemma negatives_le v : (negatives v <= length v)%nat.
Proof. unfold negatives. induction v as [|x v IH]; [cbn; lia|]. cbn. destruct (Rlt_dec x 0); cbn; lia. Qed.
Lemma no_negatives v : negatives v = 0%nat -> 0 <= lsum v.
Proof. unfold negatives. induction v as [|x v IH]; cbn; [lra|]. destruct (Rlt_dec x 0); [discriminate|]. intros H. apply IH in H. unfold lsum in H. lra. Qed.
Lemma all_negatives v : negatives v = length v -> lsum v <= 0.
Proof.
  induction v as [|x v IH]; intros H; [cbn; lra|]. pose proof (negatives_le v). unfold negatives in *. cbn in H. destruct (Rlt_dec x 0); cbn in H; [|lia].
  rewrite lsum_cons. injection H as H. apply IH in H. lra.
Qed.
Lemma calc_mean_rep w s v : (0 < w)%nat -> m_nobs s = length v -> m_sum s = lsum v -> m_neg s = negatives v ->
  calc_mean w s = if Nat.leb w (length v) then agg_mean v else NaN.
Proof.
  intros Hw A B C. unfold calc_mean. rewrite A, B, C. destruct (Nat.leb_spec w (length v)) as [L|L]; [|reflexivity].
  destruct (Nat.ltb_spec 0 (length v)) as [P|P]; [|lia]. cbn [andb]. replace (agg_mean v) with (Fin (mean v)) by (destruct v; [cbn in P; lia|reflexivity]). unfold mean.
  assert (I : 0 < / INR (length v)) by (apply Rinv_0_lt_compat, lt_0_INR, P).
  destruct (Nat.eqb_spec (negatives v) 0) as [E|E].
  - destruct (Rlt_dec (lsum v / INR (length v)) 0) as [X|_]; [|reflexivity]. exfalso. apply no_negatives in E. unfold Rdiv in X. nra.
  - destruct (Nat.eqb_spec (negatives v) (length v)) as [F|F]; [|reflexivity].
    destruct (Rlt_dec 0 (lsum v / INR (length v))) as [X|_]; [|reflexivity]. exfalso. apply all_negatives in F. unfold Rdiv in X. nra.
Qed.
Lemma roll_mean_eq w l : (0 < w)%nat -> roll_mean w l = rolling w agg_mean l.
Proof.
  intros Hw. unfold roll_mean, rolling. rewrite (roll_spec add_mean remove_mean _ _
    (fun s v => m_nobs s = length v /\ m_sum s = lsum v /\ m_neg s = negatives v) (fun v => if Nat.leb w (length v) then agg_mean v else NaN)); [reflexivity|exact Hw|..].
  - repeat split.
  - intros s v x (A & B & C). unfold add_mean, negatives. cbn [m_nobs m_sum m_neg]. rewrite app_length, lsum_snoc, filter_app, app_length, A, B, C. cbn.
    split; [lia|]. split; [reflexivity|]. unfold negatives. destruct (Rlt_dec x 0); cbn; lia.
  - intros s v x (A & B & C). unfold remove_mean, negatives in *. cbn [m_nobs m_sum m_neg]. rewrite A, B, C, lsum_cons. cbn. split; [reflexivity|]. split; [ring|].
    destruct (Rlt_dec x 0); reflexivity.
  - intros s v (A & B & C). now apply calc_mean_rep.
Qed.

(** Deviations. *)
Definition squares (v : list R) : R := lsum (map (fun x => x * x) v).
Lemma deviations v m : lsum (map (fun x => (x - m) * (x - m)) v) = squares v - 2 * m * lsum v + INR (length v) * (m * m).
Proof.
  unfold squares. induction v as [|x v IH]; [cbn; ring|]. cbn [map]. rewrite !lsum_cons, IH. cbn [length]. rewrite S_INR. ring.
Qed.
Definition var_rep (s : var_state) (v : list R) : Prop :=
  v_nobs s = length v /\ INR (length v) * v_mean s = lsum v /\ v_ssqdm s = squares v - INR (length v) * (v_mean s * v_mean s).
Lemma var_add s v x : var_rep s v -> var_rep (add_var s x) (v ++ [x]).
Proof.
  intros (A & B & C). unfold var_rep, add_var. cbn [v_nobs v_mean v_ssqdm]. rewrite app_length, A. cbn [length]. replace (length v + 1)%nat with (S (length v)) by lia.
  rewrite lsum_snoc. unfold squares in *. rewrite map_app. cbn [map]. rewrite lsum_snoc, <- B, C. rewrite S_INR. set (n := INR (length v)) in *.
  assert (0 <= n) by apply pos_INR. split; [reflexivity|]. split; field; lra.
Qed.
Lemma var_remove s v x : var_rep s (x :: v) -> var_rep (remove_var s x) v.
Proof.
  intros (A & B & C). unfold var_rep, remove_var. rewrite A. cbn [length Nat.pred]. destruct v as [|y v].
  - cbn. repeat split; ring.
  - cbn [length] in *. set (n := S (length v)) in *. cbn [v_nobs v_mean v_ssqdm]. unfold squares in *. cbn [map] in *. set (L := lsum (y :: v)) in *.
    rewrite !lsum_cons in *. rewrite S_INR in *. assert (P : 0 < INR n) by (unfold n; apply lt_0_INR; lia). change (y + lsum v) with L in *.
    set (m := v_mean s) in *. set (N := INR n) in *. assert (E : L = (N + 1) * m - x) by lra. rewrite E in *.
    split; [reflexivity|]. split; [field; lra|]. rewrite C. field. lra.
Qed.
Lemma roll_std_eq w l : (0 < w)%nat -> roll_std w l = rolling w agg_std l.
Proof.
  intros Hw. unfold roll_std, roll_var, rolling. rewrite (roll_spec add_var remove_var _ _ var_rep
    (fun v => if (Nat.leb w (length v) && Nat.ltb 1 (length v))%bool then Fin (variance v) else NaN)).
  - rewrite map_map. apply map_ext. intros i. set (v := finite_vals _). destruct (Nat.leb w (length v)); [|reflexivity]. unfold agg_std.
    destruct (Nat.ltb_spec 1 (length v)) as [H|H]; destruct (Nat.leb_spec (length v) 1) as [H'|H']; try lia; [|reflexivity]. cbn [andb zsqrt].
    destruct (Rlt_dec (variance v) 0) as [X|_]; [|reflexivity]. now rewrite sqrt_neg_0 by lra.
  - exact Hw.
  - repeat split; cbn; unfold squares; cbn; ring.
  - intros s v x. apply var_add.
  - intros s v x. apply var_remove.
  - intros s v (A & B & C). unfold calc_var. rewrite A. destruct (Nat.leb w (length v)); [|reflexivity]. destruct (Nat.ltb_spec 1 (length v)) as [H|H]; [|reflexivity]. cbn [andb].
    assert (P : 1 < INR (length v)) by (replace 1 with (INR 1) by reflexivity; now apply lt_INR).
    assert (M : v_mean s = mean v) by (unfold mean; rewrite <- B; field; lra).
    assert (V : v_ssqdm s = lsum (map (fun x => (x - mean v) * (x - mean v)) v)).
    { rewrite deviations, C, <- B, M. ring. }
    rewrite V. fold (variance v). destruct (Rlt_dec (variance v) 0) as [X|_]; [|reflexivity]. exfalso. unfold variance, Rdiv in X.
    assert (0 < / (INR (length v) - 1)) by (apply Rinv_0_lt_compat; lra).
    assert (0 <= lsum (map (fun x => (x - mean v) * (x - mean v)) v)); [|nra]. generalize (mean v). clear. intros m.
    induction v as [|x v IH]; cbn; [lra|]. pose proof (Rle_0_sqr (x - m)). unfold Rsqr in *. unfold lsum in IH. lra.
Qed.
