(** Proofs: no look-ahead and bounded memory of the feature transformers. *)
From Coq Require Import Reals Lra Lia ZArith String.
From Verif Require Import PreludeFacts Series DailyVol_Model Feat_Model Feat_Spec.
Local Open Scope nat_scope.

(** ** firstn and skipn through the series operations *)
Section Comm.
  Context {A B C : Type}.
  Lemma combine_firstn' (x : list A) : forall n (y : list B), combine (firstn n x) (firstn n y) = firstn n (combine x y).
  Proof. induction x as [|a x IH]; intros [|n] [|b y]; cbn [firstn combine]; auto. now rewrite IH. Qed.
  Lemma combine_skipn' (x : list A) : forall n (y : list B), combine (skipn n x) (skipn n y) = skipn n (combine x y).
  Proof. induction x as [|a x IH]; intros [|n] [|b y]; cbn [skipn combine]; auto. now destruct (skipn n x). Qed.
  Lemma zipw_firstn (f : A -> B -> C) n x y : zipw f (firstn n x) (firstn n y) = firstn n (zipw f x y).
  Proof. unfold zipw. now rewrite combine_firstn', firstn_map. Qed.
  Lemma zipw_skipn (f : A -> B -> C) n x y : zipw f (skipn n x) (skipn n y) = skipn n (zipw f x y).
  Proof. unfold zipw. now rewrite combine_skipn', skipn_map. Qed.
  Lemma zipw_length (f : A -> B -> C) x y : List.length (zipw f x y) = Nat.min (List.length x) (List.length y).
  Proof. unfold zipw. now rewrite map_length, combine_length. Qed.
  Lemma skipn_skipn' (l : list A) : forall a b, skipn a (skipn b l) = skipn (b + a) l.
  Proof. induction l as [|x l IH]; intros a [|b]; cbn [skipn Nat.add]; auto. now rewrite !skipn_nil. Qed.
End Comm.

Lemma shift1_firstn n (l : list (ext R)) : shift1 (firstn n l) = firstn n (shift1 l).
Proof.
  unfold shift1. rewrite firstn_length, firstn_firstn. remember (Nat.min n (List.length l)) as k eqn:Ek. destruct k as [|k]; [reflexivity|].
  cbn [firstn]. f_equal. rewrite firstn_firstn. f_equal. lia.
Qed.
Lemma shift1_length (l : list (ext R)) : List.length (shift1 l) = List.length l.
Proof. unfold shift1. rewrite firstn_length. cbn [List.length]. lia. Qed.
Lemma shift1_skipn (l : list (ext R)) : forall m, skipn 1 (shift1 (skipn m l)) = skipn (m + 1) (shift1 l).
Proof.
  assert (Hc : forall (l : list (ext R)), skipn 1 (shift1 l) = firstn (List.length l - 1) l).
  { intros [|x r]; [reflexivity|]. unfold shift1. cbn [List.length skipn firstn Nat.sub]. now rewrite Nat.sub_0_r. }
  intros m. rewrite Hc. replace (m + 1) with (1 + m) by lia. rewrite <- skipn_skipn', Hc. rewrite skipn_length.
  destruct (Nat.le_gt_cases (List.length l) m).
  - rewrite (skipn_all2 l) by auto. rewrite firstn_nil. symmetry. apply skipn_all2. rewrite firstn_length. lia.
  - rewrite skipn_firstn_comm. f_equal. lia.
Qed.
Lemma diff_firstn n (l : list (ext R)) : diff (firstn n l) = firstn n (diff l).
Proof. unfold diff. now rewrite shift1_firstn, zipw_firstn. Qed.
Lemma diff_length (l : list (ext R)) : List.length (diff l) = List.length l.
Proof. unfold diff. rewrite zipw_length, shift1_length. lia. Qed.

(** ** Window operations *)
Definition windows {A B} (w : nat) (g : list A -> B) (l : list A) : list B :=
  map (fun i => g (slice (S i - w) (S i) l)) (seq 0 (List.length l)).
Lemma slice_firstn {A} n (l : list A) i j : j <= n -> slice i j (firstn n l) = slice i j l.
Proof.
  intros H. unfold slice. destruct (Nat.le_gt_cases j i).
  - replace (j - i) with 0 by lia. reflexivity.
  - rewrite skipn_firstn_comm, firstn_firstn. f_equal. lia.
Qed.
Lemma slice_skipn {A} m (l : list A) i j : slice i j (skipn m l) = slice (m + i) (m + j) l.
Proof. unfold slice. rewrite skipn_skipn'. f_equal. lia. Qed.
Lemma firstn_seq' n : forall a k, firstn n (seq a k) = seq a (Nat.min n k).
Proof. induction n as [|n IH]; intros a [|k]; cbn [firstn seq Nat.min]; auto. now rewrite IH. Qed.
Lemma skipn_seq' n : forall a k, skipn n (seq a k) = seq (a + n) (k - n).
Proof.
  induction n as [|n IH]; intros a [|k]; cbn [skipn seq Nat.sub]; rewrite ?Nat.add_0_r; auto. rewrite IH. f_equal; lia.
Qed.
Lemma windows_firstn {A B} w (g : list A -> B) n l : windows w g (firstn n l) = firstn n (windows w g l).
Proof.
  unfold windows. rewrite firstn_map, firstn_seq', firstn_length. apply map_ext_in. intros i Hi. apply in_seq in Hi.
  rewrite slice_firstn by lia. reflexivity.
Qed.
Lemma windows_length {A B} w (g : list A -> B) l : List.length (windows w g l) = List.length l.
Proof. unfold windows. now rewrite map_length, seq_length. Qed.
Lemma windows_skipn {A B} w (g : list A -> B) m l : 1 <= w -> skipn (w - 1) (windows w g (skipn m l)) = skipn (m + (w - 1)) (windows w g l).
Proof.
  intros Hw. unfold windows. rewrite !skipn_map, !skipn_seq', skipn_length. cbn [Nat.add].
  replace (List.length l - (m + (w - 1))) with (List.length l - m - (w - 1)) by lia.
  set (k := List.length l - m - (w - 1)).
  replace (seq (m + (w - 1)) k) with (map (fun i => m + i) (seq (w - 1) k)).
  - rewrite map_map. apply map_ext_in. intros i Hi. apply in_seq in Hi. rewrite slice_skipn. f_equal. f_equal; lia.
  - clearbody k. clear. revert m. generalize (w - 1) as a. induction k as [|k IH]; intros a m; cbn [seq map]; auto. f_equal.
    rewrite IH. f_equal. lia.
Qed.

Definition roll_fun w (agg : list R -> ext R) (l : list (ext R)) : ext R :=
  let v := finite_vals l in if Nat.leb w (List.length v) then agg v else NaN.
Definition cov_fun w (l : list (ext R * ext R)) : ext R :=
  let v := finite_pairs l in if Nat.leb w (List.length v) then agg_cov v else NaN.
Lemma rolling_windows w agg l : rolling w agg l = windows w (roll_fun w agg) l.
Proof. reflexivity. Qed.
Lemma rolling_cov_windows w s t : rolling_cov w s t = windows w (cov_fun w) (combine s t).
Proof. reflexivity. Qed.
Lemma rolling_firstn w agg n l : rolling w agg (firstn n l) = firstn n (rolling w agg l).
Proof. rewrite !rolling_windows. apply windows_firstn. Qed.
Lemma rolling_cov_firstn w n s t : rolling_cov w (firstn n s) (firstn n t) = firstn n (rolling_cov w s t).
Proof. rewrite !rolling_cov_windows, combine_firstn'. apply windows_firstn. Qed.
Lemma rolling_length w agg l : List.length (rolling w agg l) = List.length l.
Proof. rewrite rolling_windows. apply windows_length. Qed.
Lemma rolling_cov_length w s t : List.length (rolling_cov w s t) = Nat.min (List.length s) (List.length t).
Proof. rewrite rolling_cov_windows, windows_length. apply combine_length. Qed.

(** Agreement of two series except for the oldest rows: [l'] is [l] without its first m rows, up to its own first k values. *)
Definition agree {B} (m k : nat) (l l' : list B) : Prop := List.length l' = List.length l - m /\ skipn k l' = skipn (m + k) l.
Section Agree.
  Variable m : nat.
  Lemma agree_skipn {B} (l : list B) k : agree m k l (skipn m l).
  Proof. split; [apply skipn_length|]. now rewrite skipn_skipn'. Qed.
  Lemma agree_weaken {B} k k' (l l' : list B) : k <= k' -> agree m k l l' -> agree m k' l l'.
  Proof.
    intros H [H1 H2]. split; auto. replace k' with (k + (k' - k)) by lia. rewrite <- skipn_skipn', H2, skipn_skipn'. f_equal. lia.
  Qed.
  Lemma agree_map {B C} (f : B -> C) k l l' : agree m k l l' -> agree m k (map f l) (map f l').
  Proof. intros [H1 H2]. split; [now rewrite !map_length|]. now rewrite !skipn_map, H2. Qed.
  Lemma agree_combine {B C} k (x x' : list B) (y y' : list C) : agree m k x x' -> agree m k y y' -> agree m k (combine x y) (combine x' y').
  Proof. intros [H1 H2] [H3 H4]. split; [rewrite !combine_length; lia|]. now rewrite <- !combine_skipn', H2, H4. Qed.
  Lemma agree_zipw {B C D} (f : B -> C -> D) k x x' y y' : agree m k x x' -> agree m k y y' -> agree m k (zipw f x y) (zipw f x' y').
  Proof. intros H H'. unfold zipw. apply agree_map. now apply agree_combine. Qed.
  (** [l'] is, up to k rows, a suffix: so further operations see the same recent rows. *)
  Lemma agree_windows {B C} w (g : list B -> C) k l l' : 1 <= w -> agree m k l l' -> agree m (k + (w - 1)) (windows w g l) (windows w g l').
  Proof.
    intros Hw [H1 H2]. split; [now rewrite !windows_length|].
    rewrite <- (windows_skipn w g k l' Hw), H2, (windows_skipn w g (m + k) l Hw). f_equal. lia.
  Qed.
  Lemma agree_rolling w agg k l l' : 1 <= w -> agree m k l l' -> agree m (k + (w - 1)) (rolling w agg l) (rolling w agg l').
  Proof. rewrite !rolling_windows. apply agree_windows. Qed.
  Lemma agree_rolling_cov w k s s' t t' : 1 <= w -> agree m k s s' -> agree m k t t' -> agree m (k + (w - 1)) (rolling_cov w s t) (rolling_cov w s' t').
  Proof. intros Hw Hs Ht. rewrite !rolling_cov_windows. apply agree_windows; auto. now apply agree_combine. Qed.
  Lemma agree_shift1 k (l l' : list (ext R)) : agree m k l l' -> agree m (k + 1) (shift1 l) (shift1 l').
  Proof.
    intros [H1 H2]. split; [now rewrite !shift1_length|]. rewrite <- shift1_skipn, H2, shift1_skipn. f_equal. lia.
  Qed.
  Lemma agree_diff k (l l' : list (ext R)) : agree m k l l' -> agree m (k + 1) (diff l) (diff l').
  Proof.
    intros H. unfold diff. apply agree_zipw; [|now apply agree_shift1]. apply (agree_weaken k); auto. lia.
  Qed.
End Agree.

(** ** Exponentially weighted mean *)
Lemma nth_error_firstn_lt {A} (l : list A) : forall n i, i < n -> nth_error (firstn n l) i = nth_error l i.
Proof. induction l as [|x l IH]; intros [|n] [|i] H; cbn [firstn nth_error]; auto; try lia. apply IH. lia. Qed.
Lemma ewm_obs_firstn span n l k : k < n -> ewm_obs span (firstn n l) k = ewm_obs span l k.
Proof.
  intros Hk. unfold ewm_obs. rewrite !flat_map_concat_map. f_equal. apply map_ext_in. intros j Hj. apply in_seq in Hj.
  rewrite nth_error_firstn_lt; [reflexivity|lia].
Qed.
Lemma ewm_mean_firstn span n l : ewm_mean span (firstn n l) = firstn n (ewm_mean span l).
Proof.
  unfold ewm_mean. rewrite firstn_map, firstn_seq', firstn_length. apply map_ext_in. intros i Hi. apply in_seq in Hi.
  unfold ewm_mean_at. rewrite ewm_obs_firstn by lia. reflexivity.
Qed.
Lemma ewm_mean_length span l : List.length (ewm_mean span l) = List.length l.
Proof. unfold ewm_mean. now rewrite map_length, seq_length. Qed.

(** ** Frames *)
Lemma lookup_map g name X idx : lookup name {| f_index := idx; f_cols := map (fun c => (fst c, g (snd c))) (f_cols X) |} = option_map g (lookup name X).
Proof.
  unfold lookup. cbn [f_cols]. induction (f_cols X) as [|c l IH]; cbn [map find]; [reflexivity|]. cbn [fst]. destruct (String.eqb (fst c) name); auto.
Qed.
Lemma lookup_head name n X : lookup name (head n X) = option_map (firstn n) (lookup name X).
Proof. apply lookup_map. Qed.
Lemma lookup_drop name n X : lookup name (drop n X) = option_map (skipn n) (lookup name X).
Proof. apply lookup_map. Qed.
Lemma lookup_length name X c : well_formed X -> lookup name X = Some c -> List.length c = List.length (f_index X).
Proof.
  intros Hw. unfold lookup. destruct (find _ _) as [p|] eqn:E; [|discriminate]. apply find_some in E as [Hin _]. intros [= <-]. auto.
Qed.
Lemma missing_head n X names : check_missing_columns (head n X) names = check_missing_columns X names.
Proof.
  unfold check_missing_columns. f_equal. f_equal. induction names as [|a r IH]; cbn [forallb]; auto. rewrite IH, lookup_head. now destruct (lookup a X).
Qed.
Lemma missing_drop n X names : check_missing_columns (drop n X) names = check_missing_columns X names.
Proof.
  unfold check_missing_columns. f_equal. f_equal. induction names as [|a r IH]; cbn [forallb]; auto. rewrite IH, lookup_drop. now destruct (lookup a X).
Qed.

(** All the transformers are built like this: look up columns (or fail), then compute. *)
Ltac columns := repeat match goal with
  | |- context [lookup ?n ?X] => destruct (lookup n X) eqn:?; cbn [option_map bind]
  end.
Ltac missing := try match goal with |- context [check_missing_columns ?X ?l] => destruct (check_missing_columns X l); cbn [bind]; [|solve [reflexivity | intros; discriminate]] end.
Ltac push := repeat first [rewrite rolling_firstn | rewrite rolling_cov_firstn | rewrite diff_firstn | rewrite shift1_firstn
               | rewrite ewm_mean_firstn | rewrite zipw_firstn | rewrite <- firstn_map].
Ltac causal_tac := intros X n Hw; unfold column; rewrite ?missing_head, ?lookup_head; missing; columns; try reflexivity; f_equal; cbv zeta; push; try reflexivity.
Ltac forget_tac := intros X m Hw; unfold column; rewrite ?missing_drop, ?lookup_drop; missing; columns; try reflexivity; cbv zeta;
  lazymatch goal with |- skipn ?k ?l' = skipn (?m + ?k) ?l => apply (proj2 (A := List.length l' = List.length l - m)); fold (agree m k l l') end.
Ltac length_tac := intros X out Hw; unfold column; missing; try discriminate; columns; intros H; try discriminate; cbv zeta in H; injection H as <-;
  repeat match goal with H : lookup _ _ = Some _ |- _ => apply (lookup_length _ _ _ Hw) in H end;
  repeat first [rewrite map_length | rewrite rolling_length | rewrite rolling_cov_length | rewrite diff_length | rewrite shift1_length | rewrite ewm_mean_length | rewrite zipw_length];
  lia.
