(** Labels and CUSUM events when the prices are revised and no return or move comes near a threshold. *)
From Coq Require Import Reals ZArith QArith Lra Lia List String Permutation.
From Verif Require Import Prelude PreludeFacts Num Series Boot_Proofs Cusum_Model Cusum_Spec Cusum_Props Label_Model Label_Spec Label_Props.
Import ListNotations.
Local Notation length := List.length.

(** * CUSUM *)
Section Moves.
  Local Open Scope Q_scope.
  Lemma rises_moved h (p p' : nat -> Q) n U : (forall i k, (i < k < n)%nat -> (h < p k - p i <-> h < p' k - p' i)) -> rises h p n U -> rises h p' n U.
  Proof. intros H R k Hk. rewrite (R k Hk). split; intros (i & Hi & L & M); exists i; (split; [exact Hi|]); (split; [exact L|]); apply (H i k (conj Hi Hk)); exact M. Qed.
  Lemma falls_moved h (p p' : nat -> Q) n U : (forall i k, (i < k < n)%nat -> (h < p i - p k <-> h < p' i - p' k)) -> falls h p n U -> falls h p' n U.
  Proof. intros H R k Hk. rewrite (R k Hk). split; intros (i & Hi & L & M); exists i; (split; [exact Hi|]); (split; [exact L|]); apply (H i k (conj Hi Hk)); exact M. Qed.
  Lemma filter_same {A} (f g : A -> bool) l : (forall x, In x l -> f x = g x) -> filter f l = filter g l.
  Proof. induction l as [|x l IH]; intros H; cbn; [reflexivity|]. rewrite (H x (or_introl eq_refl)), IH by (intros y Hy; apply H; now right). reflexivity. Qed.
  Lemma events_moved h (X X' : list (Z * Q)) : 0 <= h -> NoDup (map fst X) -> map fst X = map fst X' ->
    (forall i k, (i < k < length X)%nat -> (h < nth k (map snd X) 0 - nth i (map snd X) 0 <-> h < nth k (map snd X') 0 - nth i (map snd X') 0)) ->
    (forall i k, (i < k < length X)%nat -> (h < nth i (map snd X) 0 - nth k (map snd X) 0 <-> h < nth i (map snd X') 0 - nth k (map snd X') 0)) ->
    cusum_transform h (map (fun r => (fst r, Fin (snd r))) X) = cusum_transform h (map (fun r => (fst r, Fin (snd r))) X').
  Proof.
    intros Hh N T Hu Hd. assert (L : length X' = length X) by (rewrite <- (map_length fst X'), <- T; apply map_length). assert (N' : NoDup (map fst X')) by now rewrite <- T.
    destruct (C22_exact_crossings h X Hh N) as (u & d & Ru & Rd & _ & ->). destruct (C22_exact_crossings h X' Hh N') as (u' & d' & Ru' & Rd' & _ & ->). rewrite L, <- T in *. do 2 f_equal. apply filter_same. intros k Hk. apply in_seq in Hk.
    pose proof (C22_rises_unique _ _ _ _ _ (rises_moved _ _ _ _ _ Hu Ru) Ru' k ltac:(lia)) as A. pose proof (C22_falls_unique _ _ _ _ _ (falls_moved _ _ _ _ _ Hd Rd) Rd' k ltac:(lia)) as B.
    f_equal; apply Bool.eq_iff_eq_true; assumption.
  Qed.
End Moves.

(** * Labels *)
Local Open Scope R_scope.
Lemma lt_same x y x' y' m : Rabs (x - y) > m -> - m <= (x - y) - (x' - y') <= m -> eltb (Fin x) (Fin y) = eltb (Fin x') (Fin y').
Proof. intros H1 H2. unfold eltb. cbn [altb Arith_R]. unfold Rabs in H1. destruct (Rcase_abs (x - y)), (Rlt_dec x y), (Rlt_dec x' y'); try reflexivity; lra. Qed.
Lemma side_return_R c0 s c : c0 <> 0 -> side_return (Fin c0) (Fin s) (Fin c) = Fin ((c / c0 - 1) * s).
Proof. intros H. unfold side_return, ediv. cbn [aeqb a0 Arith_R]. destruct (Req_EM_T c0 0); [contradiction|reflexivity]. Qed.

Section Event.
  Variables (idx : list Z) (close close' : list (ext R)) (i : nat) (n : Z) (pt sl v v' s d ev c0 c0' : R).
  Hypotheses (Hidx : valid_times idx) (Hc : forall x, In x close -> exists c, x = Fin c) (Hc' : forall x, In x close' -> exists c, x = Fin c).
  Hypotheses (L : length close = length idx) (L' : length close' = length idx).
  Hypotheses (H0 : nth_error close i = Some (Fin c0)) (H0' : nth_error close' i = Some (Fin c0')) (N0 : c0 <> 0) (N0' : c0' <> 0).
  Hypotheses (Hs : s = 1 \/ s = -1) (Hv : Rabs (v - v') <= ev).
  Hypothesis Hm : forall k c c', (i <= k)%nat -> nth_error close k = Some (Fin c) -> nth_error close' k = Some (Fin c') ->
    Rabs (c / c0 - c' / c0') <= d /\ (0 < pt -> d + pt * ev < Rabs ((c / c0 - 1) * s - pt * v)) /\ (0 < sl -> d + sl * ev < Rabs ((c / c0 - 1) * s + sl * v)).

  Lemma tests_same k c c' : (i <= k)%nat -> nth_error close k = Some (Fin c) -> nth_error close' k = Some (Fin c') ->
    below_stop sl (Fin v) (side_return (Fin c0) (Fin s) (Fin c)) = below_stop sl (Fin v') (side_return (Fin c0') (Fin s) (Fin c')) /\
    above_profit pt (Fin v) (side_return (Fin c0) (Fin s) (Fin c)) = above_profit pt (Fin v') (side_return (Fin c0') (Fin s) (Fin c')).
  Proof.
    intros Hk A B. destruct (Hm k c c' Hk A B) as (D & P & S). rewrite !side_return_R by assumption. unfold below_stop, above_profit. cbn [altb a0 Arith_R emul amul aopp].
    assert (D' : - d <= c / c0 - c' / c0' <= d) by (unfold Rabs in D; destruct (Rcase_abs _); lra). assert (V' : - ev <= v - v' <= ev) by (unfold Rabs in Hv; destruct (Rcase_abs _); lra).
    assert (DS : - d <= (c / c0 - 1) * s - (c' / c0' - 1) * s <= d) by (destruct Hs as [-> | ->]; lra). set (r := (c / c0 - 1) * s) in *. set (r' := (c' / c0' - 1) * s) in *. split.
    - destruct (Rlt_dec 0 sl) as [Q|Q]; [|reflexivity]. cbn [andb]. assert (- (sl * ev) <= sl * v - sl * v' <= sl * ev) by (rewrite <- Rmult_minus_distr_l, <- Ropp_mult_distr_r_reverse; split; apply Rmult_le_compat_l; lra).
      apply (lt_same _ _ _ _ (d + sl * ev)); [|lra]. replace (r - - sl * v) with (r + sl * v) by ring. apply S. exact Q.
    - destruct (Rlt_dec 0 pt) as [Q|Q]; [|reflexivity]. cbn [andb]. assert (- (pt * ev) <= pt * v - pt * v' <= pt * ev) by (rewrite <- Rmult_minus_distr_l, <- Ropp_mult_distr_r_reverse; split; apply Rmult_le_compat_l; lra).
      apply (lt_same _ _ _ _ (d + pt * ev)); [|lra]. rewrite Rabs_minus_sym. apply P. exact Q.
  Qed.
  Lemma index_order k t0 t : nth_error idx i = Some t0 -> nth_error idx k = Some t -> (t0 <= t)%Z -> (i <= k)%nat.
  Proof. intros A B C. apply (incZ_nth_le idx (proj1 Hidx) i k t0 t A B). exact C. Qed.
  Lemma both_closes k t : nth_error idx k = Some t -> exists c c', nth_error close k = Some (Fin c) /\ nth_error close' k = Some (Fin c').
  Proof.
    intros H. assert (K : (k < length idx)%nat) by (apply nth_error_Some; now rewrite H). destruct (nth_error close k) as [x|] eqn:E; [|apply nth_error_None in E; lia]. destruct (nth_error close' k) as [x'|] eqn:E'; [|apply nth_error_None in E'; lia].
    destruct (Hc x (nth_error_In _ _ E)) as (c & ->). destruct (Hc' x' (nth_error_In _ _ E')) as (c' & ->). exists c, c'. split; reflexivity.
  Qed.
  Lemma touch_same e t : (touch idx close i e (Fin s) (below_stop sl (Fin v)) t <-> touch idx close' i e (Fin s) (below_stop sl (Fin v')) t) /\
    (touch idx close i e (Fin s) (above_profit pt (Fin v)) t <-> touch idx close' i e (Fin s) (above_profit pt (Fin v')) t).
  Proof.
    unfold touch. split; split; intros (t0 & b0 & k & c & A1 & A2 & A3 & A4 & A5 & A6); rewrite ?H0, ?H0' in A2; injection A2 as <-;
      (destruct (both_closes k t A3) as (x & x' & X1 & X2)); (pose proof (index_order k t0 t A1 A3 ltac:(lia)) as IK); destruct (tests_same k x x' IK X1 X2) as (T1 & T2); rewrite ?X1, ?X2 in A4; injection A4 as <-.
    - exists t0, (Fin c0'), k, (Fin x'). repeat (split; [assumption|]). congruence.
    - exists t0, (Fin c0), k, (Fin x). repeat (split; [assumption|]). congruence.
    - exists t0, (Fin c0'), k, (Fin x'). repeat (split; [assumption|]). congruence.
    - exists t0, (Fin c0), k, (Fin x). repeat (split; [assumption|]). congruence.
  Qed.
  Lemma barrier_same t : barrier_time idx close i n pt sl (Fin v) (Fin s) t <-> barrier_time idx close' i n pt sl (Fin v') (Fin s) t.
  Proof.
    unfold barrier_time. split; (intros [H|(e & He & [H|H])]; [now left| |]); right; exists e; (split; [exact He|]); destruct (touch_same e t) as [A B]; tauto.
  Qed.
  Lemma touched_same : touched idx close i n pt sl (Fin v) (Fin s) <-> touched idx close' i n pt sl (Fin v') (Fin s).
  Proof. unfold touched. split; intros (e & t & He & H); exists e, t; (split; [exact He|]); destruct (touch_same e t) as [A B]; tauto. Qed.
End Event.

(** Signs of returns at most [d] apart, the first beyond [d]. *)
Lemma signs_same r r' d : d < Rabs r -> Rabs (r - r') <= d ->
  eltb (Fin r) (Fin 0) = eltb (Fin r') (Fin 0) /\ eltb (Fin 0) (Fin r) = eltb (Fin 0) (Fin r').
Proof.
  intros H K. assert (- d <= r - r' <= d) by (unfold Rabs in K; destruct (Rcase_abs _); lra). split; apply (lt_same _ _ _ _ d).
  - rewrite Rminus_0_r. lra. - lra. - rewrite Rminus_0_l, Rabs_Ropp. lra. - lra.
Qed.
Lemma label_ext (b : bool) r r' d : d < Rabs r -> Rabs (r - r') <= d ->
  (if b then success_label (Fin r) else sign_label (Fin r)) = (if b then success_label (Fin r') else sign_label (Fin r')).
Proof. intros H K. destruct (signs_same r r' d H K) as [E F]. unfold success_label, sign_label. cbn [a0 Arith_R]. rewrite E, F. reflexivity. Qed.

Lemma labels_moved : forall dv dv' order order' (cfg : config R) y y' close close' out out' i o o' s d ev v v' c0 c0',
  valid_times (f_index y) -> f_index y' = f_index y -> well_formed y -> well_formed y' -> (0 <= n_expiration_bars cfg)%Z ->
  Permutation order (seq 0 (length (f_index y))) -> Permutation order' (seq 0 (length (f_index y))) ->
  column y (close_column cfg) = Some close -> column y' (close_column cfg) = Some close' ->
  (forall x, In x close -> exists c, x = Fin c) -> (forall x, In x close' -> exists c, x = Fin c) ->
  event_side y i (Fin s) -> event_side y' i (Fin s) -> s = 1 \/ s = -1 ->
  transform dv order cfg y = Ok out -> transform dv' order' cfg y' = Ok out' ->
  nth_error out i = Some o -> nth_error out' i = Some o' -> o_vol o = Fin v -> o_vol o' = Fin v' -> Rabs (v - v') <= ev ->
  nth_error close i = Some (Fin c0) -> nth_error close' i = Some (Fin c0') -> c0 <> 0 -> c0' <> 0 ->
  (forall k c c', (i <= k)%nat -> nth_error close k = Some (Fin c) -> nth_error close' k = Some (Fin c') ->
    Rabs (c / c0 - c' / c0') <= d /\
    (0 < profit_taking_factor cfg -> d + profit_taking_factor cfg * ev < Rabs ((c / c0 - 1) * s - profit_taking_factor cfg * v)) /\
    (0 < stop_loss_factor cfg -> d + stop_loss_factor cfg * ev < Rabs ((c / c0 - 1) * s + stop_loss_factor cfg * v))) ->
  o_end o' = o_end o /\ ((forall r, o_return o = Fin r -> d < Rabs r) -> o_label o' = o_label o).
Proof.
  intros dv dv' order order' cfg y y' close close' out out' i o o' s d ev v v' c0 c0' VT EI W W' HN P P' C C' F F' S S' Hs T T' O O' V V' Hv H0 H0' N0 N0' Hm.
  assert (VT' : valid_times (f_index y')) by now rewrite EI. assert (P2 : Permutation order' (seq 0 (length (f_index y')))) by now rewrite EI.
  pose proof (C27_first_of_three R _ dv order cfg y close out i o (Fin s) VT W P C S T O ltac:(now rewrite V)) as B.
  pose proof (C27_first_of_three R _ dv' order' cfg y' close' out' i o' (Fin s) VT' W' P2 C' S' T' O' ltac:(now rewrite V')) as B'.
  pose proof (W _ _ C) as L. pose proof (W' _ _ C') as L'. rewrite EI in L'. rewrite V in B. rewrite V', EI in B'.
  set (n := n_expiration_bars cfg) in *. set (pt := profit_taking_factor cfg) in *. set (sl := stop_loss_factor cfg) in *.
  pose proof (barrier_same (f_index y) close close' i n pt sl v v' s d ev c0 c0' VT F F' L L' H0 H0' N0 N0' Hs Hv Hm) as BS.
  pose proof (touched_same (f_index y) close close' i n pt sl v v' s d ev c0 c0' VT F F' L L' H0 H0' N0 N0' Hs Hv Hm) as TS.
  assert (E : forall t, o_end o' = Some t <-> o_end o = Some t).
  { intros t. rewrite B, B'. unfold least. split; intros [X Y]; (split; [apply BS; exact X|]); intros u Hu; apply Y, BS; exact Hu. }
  assert (EE : o_end o' = o_end o) by (destruct (o_end o) as [t|]; [now apply E|]; destruct (o_end o') as [t|]; [symmetry; now apply E|reflexivity]).
  split; [exact EE|]. intros Hr. destruct (o_end o) as [t|] eqn:Eo.
  2: { destruct (C28_no_end R _ dv order cfg y out i o VT W P T O Eo) as [_ ->]. destruct (C28_no_end R _ dv' order' cfg y' out' i o' VT' W' P2 T' O' EE) as [_ ->]. reflexivity. }
  destruct (C28_return_and_label R _ dv order cfg y close out i o (Fin s) t VT W P C S T O Eo) as (p & a & c & I1 & I2 & I3 & R1 & X1 & Y1).
  destruct (C28_return_and_label R _ dv' order' cfg y' close' out' i o' (Fin s) t VT' W' P2 C' S' T' O' EE) as (p' & a' & c' & I1' & I2' & I3' & R1' & X1' & Y1').
  rewrite EI in *. fold n pt sl in X1, Y1, X1', Y1'. rewrite V in X1, Y1. rewrite V' in X1', Y1'. rewrite H0 in I2. injection I2 as <-. rewrite H0' in I2'. injection I2' as <-.
  assert (Ip : p' = p) by (apply Nat.le_antisymm; apply (incZ_nth_le _ (proj1 VT) _ _ t t); auto; lia). subst p'.
  destruct (F c (nth_error_In _ _ I3)) as (x & ->). destruct (F' c' (nth_error_In _ _ I3')) as (x' & ->).
  assert (IK : (i <= p)%nat).
  { destruct (nth_error (f_index y) i) as [t0|] eqn:Ti; [|apply nth_error_None in Ti; assert (i < length close)%nat by (apply nth_error_Some; now rewrite H0); lia].
    apply (incZ_nth_le _ (proj1 VT) i p t0 t Ti I1). pose proof (proj1 (B t) eq_refl) as [[(q & Q1 & Q2)|(e & _ & [Q|Q])] _].
    - assert (Q3 : (i <= q)%nat) by lia. apply (incZ_nth_le _ (proj1 VT) i q t0 t Ti Q2). exact Q3.
    - destruct Q as (u0 & ? & ? & ? & Q1 & _ & _ & _ & Q5 & _). rewrite Ti in Q1. injection Q1 as <-. lia.
    - destruct Q as (u0 & ? & ? & ? & Q1 & _ & _ & _ & Q5 & _). rewrite Ti in Q1. injection Q1 as <-. lia. }
  destruct (Hm p x x' IK I3 I3') as (D & _ & _).
  assert (Q : forall c0 c, c0 <> 0 -> esub (ediv (Fin c) (Fin c0)) (Fin a1) = Fin (c / c0 - 1)).
  { intros b c Hb. unfold ediv. cbn [aeqb a0 Arith_R]. destruct (Req_EM_T b 0); [contradiction|reflexivity]. }
  rewrite Q in R1, Y1 by exact N0. rewrite Q in R1', Y1' by exact N0'. cbn [emul amul Arith_R] in *.
  set (r := if metalabeling cfg then (x / c0 - 1) * s else x / c0 - 1). set (r' := if metalabeling cfg then (x' / c0' - 1) * s else x' / c0' - 1).
  assert (Er : o_return o = Fin r) by (rewrite R1; unfold r; destruct (metalabeling cfg); reflexivity).
  assert (Dr : Rabs (r - r') <= d).
  { unfold r, r'. destruct (metalabeling cfg); [|replace (x / c0 - 1 - (x' / c0' - 1)) with (x / c0 - x' / c0') by ring; exact D].
    replace ((x / c0 - 1) * s - (x' / c0' - 1) * s) with ((x / c0 - x' / c0') * s) by ring. rewrite Rabs_mult. replace (Rabs s) with 1; [lra|]. destruct Hs as [-> | ->]; [now rewrite Rabs_R1|now rewrite (Rabs_left (-1)) by lra; lra]. }
  pose proof (label_ext (metalabeling cfg) r r' d (Hr r Er) Dr) as LE.
  assert (Y2 : expiration_label cfg = false \/ touched (f_index y) close i n pt sl (Fin v) (Fin s) -> o_label o = (if metalabeling cfg then success_label (Fin r) else sign_label (Fin r))).
  { intros Z. rewrite (Y1 Z). unfold r. destruct (metalabeling cfg); reflexivity. }
  assert (Y2' : expiration_label cfg = false \/ touched (f_index y) close' i n pt sl (Fin v') (Fin s) -> o_label o' = (if metalabeling cfg then success_label (Fin r') else sign_label (Fin r'))).
  { intros Z. rewrite (Y1' Z). unfold r'. destruct (metalabeling cfg); reflexivity. }
  destruct (expiration_label cfg) eqn:Ex; [|rewrite (Y2 (or_introl eq_refl)), (Y2' (or_introl eq_refl)); symmetry; exact LE].
  destruct (Classical_Prop.classic (touched (f_index y) close i n pt sl (Fin v) (Fin s))) as [H|H].
  - rewrite (Y2 (or_intror H)), (Y2' (or_intror (proj1 TS H))). symmetry. exact LE.
  - rewrite (X1 eq_refl H), (X1' eq_refl); [reflexivity|]. intros K. apply H, TS, K.
Qed.
