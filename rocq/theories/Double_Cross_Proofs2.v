(** The crossover in exact arithmetic, on rounded rationals, and in a flat market. *)
From Coq Require Import Reals ZArith QArith Qreals Lra Lia List String.
From Verif Require Import Prelude PreludeFacts Num Series DailyVol_Model Feat_Model Feat_Spec Feat_Proofs Feat_Proofs3 Feat_Proofs5 Feat_Proofs6 Roll_Model Roll_Proofs
  Double_Model Double_Spec Double_Proofs Double_Proofs2 Rounding_Model Rounding_Proofs Rounding_Arith_Model Rounding_Arith_Proofs
  Double_Vpin_Model Double_Vpin_Spec Double_Vpin_Proofs Double_Vpin_Proofs2 Double_Vpin_Proofs3 Double_Cross_Model Double_Cross_Proofs.
Import ListNotations.
Local Open Scope R_scope.
Local Notation length := List.length.

(** ** Exact arithmetic *)

Lemma anat_real n : @anat R Arith_R n = INR n.
Proof. induction n as [|n IH]; [reflexivity|]. cbn [anat]. rewrite IH, S_INR. reflexivity. Qed.
Lemma mean_real w l : (0 < w)%nat -> @kahan_mean R Arith_R w l = rolling w agg_mean l.
Proof.
  intros Hw. unfold kahan_mean, rolling. rewrite (roll_spec (@add_mean R Arith_R) (@remove_mean R Arith_R) _ _
    (fun s v => (k_nobs (fst s) = length v /\ k_sum (fst s) = lsum v /\ k_add (fst s) = 0 /\ k_remove (fst s) = 0) /\ snd s = negatives v)
    (fun v => if Nat.leb w (length v) then agg_mean v else NaN)); [reflexivity|exact Hw|..].
  - repeat split.
  - intros s v x ((A & B & C & D) & E). unfold add_mean, add_sum, asub. cbn [fst snd k_nobs k_sum k_add k_remove aadd aopp altb a0 Arith_R].
    rewrite app_length, lsum_snoc, A, B, C, D, E. cbn [length]. unfold negatives. rewrite filter_app, app_length. cbn.
    repeat split; [lia|ring|ring|]. destruct (Rlt_dec x 0); cbn; lia.
  - intros s v x ((A & B & C & D) & E). unfold remove_mean, remove_sum, asub. cbn [fst snd k_nobs k_sum k_add k_remove aadd aopp altb a0 Arith_R].
    rewrite A, B, C, D, E, lsum_cons. cbn [length Nat.pred]. repeat split; try ring. unfold negatives. cbn. destruct (Rlt_dec x 0); reflexivity.
  - intros s v ((A & B & _ & _) & E). unfold calc_mean. rewrite A, B, E, anat_real. unfold adiv. cbn [amul ainv altb a0 Arith_R]. fold (Rdiv (lsum v) (INR (length v))).
    destruct (Nat.leb_spec w (length v)) as [L|L]; [|reflexivity].
    pose proof (calc_mean_rep w {| m_nobs := length v; m_sum := lsum v; m_neg := negatives v |} v Hw eq_refl eq_refl eq_refl) as M.
    unfold Roll_Model.calc_mean in M. cbn [m_nobs m_sum m_neg] in M. destruct (Nat.leb_spec w (length v)); [|lia].
    destruct (Nat.ltb_spec 0 (length v)) as [P|P]; [|lia]. cbn [andb] in *. rewrite <- M.
    destruct (Nat.eqb_spec (negatives v) 0) as [Z|Z]; cbn [andb].
    + destruct (Rlt_dec (lsum v / INR (length v)) 0); [reflexivity|]. destruct (Nat.eqb_spec (negatives v) (length v)); [lia|reflexivity].
    + destruct (Nat.eqb_spec (negatives v) (length v)); cbn [andb]; [|reflexivity]. now destruct (Rlt_dec 0 _).
Qed.
Lemma c116_exact fast slow fill name X : (0 < fast)%nat -> (0 < slow)%nat -> crossover_running Arith_R fast slow fill name X = ma_crossover fast slow fill name X.
Proof. intros Hf Hs. unfold crossover_running, ma_crossover. destruct (column name X); [|reflexivity]. cbn [bind]. now rewrite !mean_real. Qed.

(** ** Rounded rationals *)

Lemma real_anat n : Q2R (@anat Q RA n) = @anat R DA n.
Proof. induction n as [|n IH]; [apply real_0|]. cbn [anat]. rewrite real_aadd, IH. cbn [a1 Arith_rounded Arith_double]. now rewrite RMicromega.Q2R_1. Qed.
Lemma anat_nonzero n : (Z.of_nat n <= 2 ^ 53)%Z -> (0 < n)%nat -> ~ (@anat Q RA n == 0)%Q.
Proof. intros H Hn E. apply Qeq_eqR in E. rewrite real_anat, real_0, anat_double in E by exact H. apply lt_0_INR in Hn. lra. Qed.
Definition real_kmean (s : @kmean Q) : @kmean R := (real_kahan (fst s), snd s).
Lemma real_add_mean s v : real_kmean (@add_mean Q RA s v) = @add_mean R DA (real_kmean s) (Q2R v).
Proof.
  unfold add_mean, real_kmean. cbn [fst snd]. rewrite real_add_sum. f_equal. change (@a0 R DA) with 0. rewrite <- real_0, real_altb. reflexivity.
Qed.
Lemma real_remove_mean s v : real_kmean (@remove_mean Q RA s v) = @remove_mean R DA (real_kmean s) (Q2R v).
Proof.
  unfold remove_mean, real_kmean. cbn [fst snd]. rewrite real_remove_sum. f_equal. change (@a0 R DA) with 0. rewrite <- real_0, real_altb. reflexivity.
Qed.
Lemma real_calc_mean w s : (Z.of_nat (k_nobs (fst s)) <= 2 ^ 53)%Z -> real (@calc_mean Q RA w s) = @calc_mean R DA w (real_kmean s).
Proof.
  intros H. unfold calc_mean, real_kmean. cbn [fst snd real_kahan k_nobs k_sum].
  destruct (Nat.ltb_spec 0 (k_nobs (fst s))) as [P|P]; rewrite ?andb_true_r, ?andb_false_r; [|reflexivity]. destruct (Nat.leb w _); [|reflexivity].
  rewrite <- real_anat, <- real_adiv by now apply anat_nonzero. change (@a0 R DA) with 0. rewrite <- real_0. rewrite !real_altb. change (@a0 Q RA) with 0%Q.
  destruct (_ && _)%bool; [reflexivity|]. now destruct (_ && _)%bool.
Qed.
Lemma real_mfold (f : @kmean Q -> Q -> @kmean Q) (h : @kmean R -> R -> @kmean R) : (forall s v, real_kmean (f s v) = h (real_kmean s) (Q2R v)) ->
  forall l s, real_kmean (fold_left (if_finite f) l s) = fold_left (if_finite h) (map real l) (real_kmean s).
Proof. intros H l. induction l as [|[x| | |] l IH]; intros s; cbn [fold_left map if_finite real]; [reflexivity| |apply IH..]. now rewrite IH, H. Qed.
Lemma nobs_fold_add l : forall s, (k_nobs (fst (fold_left (if_finite (@add_mean Q RA)) l s)) <= k_nobs (fst s) + length l)%nat.
Proof. induction l as [|[x| | |] l IH]; intros s; cbn [fold_left if_finite length]; [lia| |specialize (IH s); lia..]. eapply Nat.le_trans; [apply IH|]. cbn. lia. Qed.
Lemma nobs_fold_remove l : forall s, (k_nobs (fst (fold_left (if_finite (@remove_mean Q RA)) l s)) <= k_nobs (fst s))%nat.
Proof. induction l as [|[x| | |] l IH]; intros s; cbn [fold_left if_finite]; [lia| |specialize (IH s); lia..]. eapply Nat.le_trans; [apply IH|]. cbn. lia. Qed.
Lemma real_mroll w l : forall rows s, (Z.of_nat (k_nobs (fst s) + length rows) <= 2 ^ 53)%Z ->
  map real (roll_loop (if_finite (@add_mean Q RA)) (if_finite (@remove_mean Q RA)) (@calc_mean Q RA w) w l s rows) =
  roll_loop (if_finite (@add_mean R DA)) (if_finite (@remove_mean R DA)) (@calc_mean R DA w) w (map real l) (real_kmean s) rows.
Proof.
  induction rows as [|i rows IH]; intros s HN; [reflexivity|]. cbn [roll_loop map].
  set (left := match i with 0%nat => [] | S j => slice (start w j) (start w i) l end).
  set (s' := fold_left (if_finite (@add_mean Q RA)) (slice i (S i) l) (fold_left (if_finite (@remove_mean Q RA)) left s)).
  assert (HN' : (Z.of_nat (k_nobs (fst s') + length rows) <= 2 ^ 53)%Z).
  { pose proof (nobs_fold_add (slice i (S i) l) (fold_left (if_finite (@remove_mean Q RA)) left s)) as A. pose proof (nobs_fold_remove left s) as B.
    assert (C : (length (slice i (S i) l) <= 1)%nat) by (unfold slice; rewrite firstn_length; lia). fold s' in A. cbn [length] in HN. lia. }
  rewrite IH by exact HN'. rewrite real_calc_mean by lia. unfold s'. rewrite (real_mfold _ _ real_add_mean), (real_mfold _ _ real_remove_mean).
  unfold left. destruct i; rewrite ?slice_map; reflexivity.
Qed.
Lemma real_kahan_mean w l : (Z.of_nat (length l) <= 2 ^ 53)%Z -> map real (@kahan_mean Q RA w l) = @kahan_mean R DA w (map real l).
Proof.
  intros H. unfold kahan_mean, roll. rewrite real_mroll by (cbn [fst k_nobs]; rewrite seq_length; lia). rewrite map_length. f_equal.
  unfold real_kmean, real_kahan. cbn [fst snd k_nobs k_sum k_add k_remove a0 Arith_rounded Arith_double]. now rewrite real_0.
Qed.
(** The rows of the crossings. *)
Definition up_rows (idx : list Z) (f s : list (ext Q)) : list Z :=
  mask_sel idx (zipw andb (zipw (@eleb Q RA) (shift1 f) (shift1 s)) (zipw (fun f s => @eltb Q RA s f) f s)).
Definition down_rows (idx : list Z) (f s : list (ext Q)) : list Z :=
  mask_sel idx (zipw andb (zipw (fun f s => @eleb Q RA s f) (shift1 f) (shift1 s)) (zipw (@eltb Q RA) f s)).
Lemma zipw_real {B} (f : ext Q -> ext Q -> B) (h : ext R -> ext R -> B) a b : (forall x y, h (real x) (real y) = f x y) ->
  zipw h (map real a) (map real b) = zipw f a b.
Proof. intros H. unfold zipw. revert b. induction a as [|x a IH]; intros [|y b]; cbn; try reflexivity. now rewrite H, IH. Qed.
Lemma shift_real l : @shift1 R (map real l) = map real (@shift1 Q l).
Proof. unfold shift1. rewrite map_length, <- firstn_map. reflexivity. Qed.
Lemma real_ltb x y : @eltb R Arith_R (real x) (real y) = @eltb Q RA x y.
Proof. rewrite <- real_eltb. reflexivity. Qed.
Lemma real_leb x y : @eleb R Arith_R (real x) (real y) = @eleb Q RA x y.
Proof. unfold eleb. rewrite real_ltb. f_equal. rewrite <- real_eeqb. reflexivity. Qed.
Lemma up_real idx f s : up_cross_indices idx (map real f) (map real s) = up_rows idx f s.
Proof.
  unfold up_cross_indices, up_rows. cbv zeta. rewrite !shift_real. do 2 f_equal; apply zipw_real; intros; [apply real_leb|apply real_ltb].
Qed.
Lemma down_real idx f s : down_cross_indices idx (map real f) (map real s) = down_rows idx f s.
Proof.
  unfold down_cross_indices, down_rows. cbv zeta. rewrite !shift_real. do 2 f_equal; apply zipw_real; intros; [apply real_leb|apply real_ltb].
Qed.

(** ** A flat market *)

Lemma flat_mean w p l : (0 < w)%nat -> Forall (fun x => x = NaN \/ x = Fin p) l -> Forall (fun x => x = NaN \/ x = Fin p) (rolling w agg_mean l).
Proof.
  intros Hw F. apply Forall_forall. intros x Hx. unfold rolling in Hx. apply in_map_iff in Hx as (i & <- & _).
  set (v := finite_vals _). destruct (Nat.leb_spec w (length v)) as [L|L]; [|now left]. right.
  assert (A : Forall (fun x => x = p) v).
  { apply Forall_forall. intros y Hy. unfold v, finite_vals in Hy. apply in_flat_map in Hy as (z & Hz & Hy). unfold slice in Hz. apply in_firstn in Hz.
    assert (Hl : In z l) by (rewrite <- (firstn_skipn (S i - w) l); apply in_or_app; now right).
    rewrite Forall_forall in F. destruct (F z Hl) as [-> | ->]; cbn in Hy; [destruct Hy|]. destruct Hy as [<-|[]]. reflexivity. }
  clearbody v. assert (E : lsum v = INR (length v) * p).
  { clear L. induction A as [|x v -> A IH]; [cbn; ring|]. rewrite lsum_cons, IH. cbn [length]. rewrite S_INR. ring. }
  destruct v as [|x v]; [cbn in L; lia|]. unfold agg_mean, mean. rewrite E. f_equal. assert (0 < INR (length (x :: v))) by (apply lt_0_INR; cbn; lia). field. lra.
Qed.
Lemma flat_false p (f : ext R -> ext R -> bool) a b : (forall x y, (x = NaN \/ x = Fin p) -> (y = NaN \/ y = Fin p) -> f x y = false) ->
  Forall (fun x => x = NaN \/ x = Fin p) a -> Forall (fun x => x = NaN \/ x = Fin p) b -> Forall (eq false) (zipw f a b).
Proof.
  intros H Fa. revert b. unfold zipw. induction Fa as [|x a Hx Fa IH]; intros [|y b] Fb; cbn; constructor; inversion_clear Fb; [symmetry; now apply H|now apply IH].
Qed.
Lemma mask_none (idx : list Z) (c : list bool) m : Forall (eq false) m -> mask_sel idx (zipw andb c m) = [].
Proof.
  intros F. unfold mask_sel, zipw. revert idx c. induction F as [|x m <- F IH]; intros [|i idx] [|b c]; cbn; try reflexivity.
  rewrite andb_false_r. cbn. apply IH.
Qed.
Lemma c116_flat_exact fast slow fill name X p c : (0 < fast)%nat -> (0 < slow)%nat -> lookup name X = Some c -> Forall (fun x => x = NaN \/ x = Fin p) c ->
  ma_crossover fast slow fill name X = Ok (map (fun _ => Fin 0) (f_index X)).
Proof.
  intros Hf Hs Hl F. unfold ma_crossover, column. rewrite Hl. cbn [bind].
  assert (N : forall x y : ext R, (x = NaN \/ x = Fin p) -> (y = NaN \/ y = Fin p) -> eltb x y = false).
  { intros x y [-> | ->] [-> | ->]; try reflexivity. cbn. destruct (Rlt_dec p p); [lra|reflexivity]. }
  assert (U : up_cross_indices (f_index X) (rolling fast agg_mean c) (rolling slow agg_mean c) = []).
  { unfold up_cross_indices. cbv zeta. apply mask_none. apply (flat_false p); auto using flat_mean. }
  assert (D : down_cross_indices (f_index X) (rolling fast agg_mean c) (rolling slow agg_mean c) = []).
  { unfold down_cross_indices. cbv zeta. apply mask_none. apply (flat_false p); auto using flat_mean. }
  rewrite U, D. f_equal.
  assert (L : forall v (s : list (ext R)), length s = length (f_index X) -> loc_set (f_index X) [] v s = s).
  { clear. intros v s Ls. unfold loc_set, zipw. revert s Ls. induction (f_index X) as [|i l IH]; intros [|x s] Ls; try discriminate; [reflexivity|]. cbn. f_equal. apply IH. cbn in Ls. injection Ls as Ls. exact Ls. }
  rewrite !L by (rewrite ?L; rewrite map_length; reflexivity).
  clear. unfold fillna0, ffill. destruct fill.
  - induction (f_index X) as [|i l IH]; [reflexivity|]. cbn. f_equal. exact IH.
  - generalize (@NaN R) as last. induction (f_index X) as [|i l IH]; intros last; [reflexivity|]. cbn. f_equal. apply IH.
Qed.
