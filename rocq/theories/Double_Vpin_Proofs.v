(** Compensated rolling sums of multiples of a power of two are exact. *)
From Coq Require Import Reals ZArith Lra Lia List String.
From Verif Require Import Prelude PreludeFacts Num Series DailyVol_Model Feat_Model Feat_Spec Feat_Proofs5 Feat_Proofs6 Roll_Model Roll_Proofs
  Double_Model Double_Spec Double_Proofs Double_Proofs2 Double_Vpin_Model.
Import ListNotations.
Local Open Scope nat_scope.

(** The loop, for states that represent the window only while the windows are well behaved. *)
Section Guarded.
  Context {S : Type} (addf removef : S -> R -> S) (output : S -> ext R) (empty : S) (Rep : S -> list R -> Prop) (ok : list R -> Prop) (g : list R -> ext R) (w : nat).
  Hypothesis Hw : 0 < w.
  Hypothesis He : Rep empty [].
  Hypothesis Hadd : forall s v x, Rep s v -> ok (v ++ [x]) -> Rep (addf s x) (v ++ [x]).
  Hypothesis Hrem : forall s v x, Rep s (x :: v) -> Rep (removef s x) v.
  Hypothesis Hout : forall s v, Rep s v -> output s = g v.
  Lemma guarded_loop l : (forall i, i < length l -> ok (finite_vals (slice (start w i) (Datatypes.S i) l))) ->
    forall n i s, i + n <= length l -> Rep s (finite_vals (slice (previous w i) i l)) ->
    roll_loop (if_finite addf) (if_finite removef) output w l s (seq i n) = map (fun i => g (finite_vals (slice (start w i) (Datatypes.S i) l))) (seq i n).
  Proof.
    intros Hok. induction n as [|n IH]; intros i s L H; [reflexivity|]. cbn [seq roll_loop map].
    assert (P : previous w i <= start w i <= i) by (unfold previous, start; destruct i; lia).
    replace (match i with 0 => [] | Datatypes.S j => slice (start w j) (start w i) l end) with (slice (previous w i) (start w i) l)
      by (destruct i; [unfold previous, start; now replace (1 - w) with 0 by lia|reflexivity]).
    rewrite (slice_split l _ (start w i)) in H by exact P. apply (rep_remove removef Rep Hrem) in H.
    specialize (Hok i ltac:(lia)). rewrite (slice_split l (start w i) i (Datatypes.S i)) in Hok by (clear - P; lia).
    assert (E : exists x, slice i (Datatypes.S i) l = [x]).
    { unfold slice. replace (Datatypes.S i - i) with 1 by lia. destruct (skipn i l) as [|x r] eqn:Er; [|now exists x].
      apply (f_equal (@length _)) in Er. rewrite skipn_length in Er. cbn in Er. lia. }
    destruct E as [x E]. rewrite E in *. rewrite finite_vals_app in Hok. cbn [fold_left].
    assert (H' : Rep (if_finite addf (fold_left (if_finite removef) (slice (previous w i) (start w i) l) s) x) (finite_vals (slice (start w i) (Datatypes.S i) l))).
    { rewrite (slice_split l (start w i) i (Datatypes.S i)) by (clear - P; lia). rewrite E, finite_vals_app. destruct x; cbn [if_finite finite_vals flat_map app] in *;
        [now apply Hadd|rewrite app_nil_r; exact H..]. }
    rewrite (Hout _ _ H'). f_equal. apply IH; [lia|]. exact H'.
  Qed.
  Lemma guarded_roll l : (forall i, i < length l -> ok (finite_vals (slice (Datatypes.S i - w) (Datatypes.S i) l))) ->
    roll (if_finite addf) (if_finite removef) output empty w l =
    map (fun i => g (finite_vals (slice (Datatypes.S i - w) (Datatypes.S i) l))) (seq 0 (length l)).
  Proof. intros H. unfold roll. refine (guarded_loop l H (length l) 0 empty _ He). lia. Qed.
End Guarded.

Local Open Scope R_scope.
Notation DA := Arith_double.
Definition zsum (l : list Z) : Z := fold_right Z.add 0%Z l.
Lemma zsum_app a b : zsum (a ++ b) = (zsum a + zsum b)%Z.
Proof. unfold zsum. induction a as [|x a IH]; cbn; [reflexivity|]. rewrite IH. lia. Qed.
Lemma zsum_abs l : (Z.abs (zsum l) <= zsum (map Z.abs l))%Z.
Proof. unfold zsum. induction l as [|x l IH]; cbn -[Z.abs] in *; lia. Qed.
Lemma zsum_abs_pos l : (0 <= zsum (map Z.abs l))%Z.
Proof. unfold zsum. induction l as [|x l IH]; cbn -[Z.abs] in *; lia. Qed.

Section Grid.
  Variable e : Z.
  Hypothesis He : (-1074 <= e)%Z.
  Definition tick (z : Z) : R := IZR z * powerRZ 2 e.
  Lemma tick_id z : (Z.abs z < 2 ^ 53)%Z -> to_double (tick z) = tick z.
  Proof. intros. apply to_double_id. exists z, e. auto. Qed.
  Lemma tick_add a b : tick a + tick b = tick (a + b). Proof. unfold tick. rewrite plus_IZR. lra. Qed.
  Lemma tick_opp a : - tick a = tick (- a). Proof. unfold tick. rewrite opp_IZR. lra. Qed.
  Lemma tick_0 : tick 0 = 0. Proof. unfold tick. lra. Qed.
  Lemma lsum_tick l : lsum (map tick l) = tick (zsum l).
  Proof. induction l as [|x l IH]; [symmetry; apply tick_0|]. cbn [map]. rewrite lsum_cons, IH, tick_add. reflexivity. Qed.
  Lemma tick_inj a b : tick a = tick b -> a = b.
  Proof. unfold tick. intros H. apply eq_IZR. assert (0 < powerRZ 2 e) by (apply powerRZ_lt; lra). nra. Qed.

  Definition small (v : list R) : Prop := exists zs, v = map tick zs /\ (zsum (map Z.abs zs) < 2 ^ 53)%Z.
  Definition krep (s : kahan R) (v : list R) : Prop :=
    exists zs, v = map tick zs /\ (zsum (map Z.abs zs) < 2 ^ 53)%Z /\ k_nobs s = length zs /\ k_sum s = tick (zsum zs) /\ k_add s = 0 /\ k_remove s = 0.
  Lemma asub_0 a : (Z.abs a < 2 ^ 53)%Z -> @asub R DA (tick a) 0 = tick a.
  Proof. intros H. unfold asub. cbn [aadd aopp Arith_double]. rewrite Ropp_0, Rplus_0_r. now apply tick_id. Qed.
  Lemma aadd_tick a b : (Z.abs (a + b) < 2 ^ 53)%Z -> @aadd R DA (tick a) (tick b) = tick (a + b).
  Proof. intros H. cbn [aadd Arith_double]. rewrite tick_add. now apply tick_id. Qed.
  Lemma asub_tick a b : (Z.abs (a - b) < 2 ^ 53)%Z -> @asub R DA (tick a) (tick b) = tick (a - b).
  Proof. intros H. unfold asub. cbn [aopp Arith_double]. rewrite tick_opp. now apply aadd_tick. Qed.
  Lemma krep_add s v x : krep s v -> small (v ++ [x]) -> krep (@add_sum R DA s x) (v ++ [x]).
  Proof.
    intros (zs & -> & B & N & M & P & Q) (zs' & E & B').
    destruct (exists_last (l := zs')) as (zs0 & z & ->).
    { intros ->. apply (f_equal (@length _)) in E. rewrite app_length in E. cbn in E. lia. }
    rewrite map_app in E. cbn [map] in E. apply app_inj_tail in E. destruct E as [E ->].
    assert (zs = zs0) as -> by (clear - E; revert zs0 E; induction zs as [|a zs IH]; intros [|b zs0] E; cbn in E; try discriminate; [reflexivity|];
      injection E as E1 E2; apply tick_inj in E1; subst; f_equal; auto).
    rewrite map_app, zsum_app in B'. cbn in B'. pose proof (zsum_abs zs0). pose proof (zsum_abs_pos zs0).
    exists (zs0 ++ [z]). rewrite map_app. split; [reflexivity|]. rewrite map_app, !zsum_app. split; [cbn; lia|].
    unfold add_sum. rewrite P, M. rewrite asub_0 by lia. rewrite (aadd_tick (zsum zs0) z) by lia. rewrite (asub_tick (zsum zs0 + z) (zsum zs0)) by lia.
    rewrite (asub_tick (zsum zs0 + z - zsum zs0) z) by lia. cbn [k_nobs k_sum k_add k_remove]. rewrite app_length, N. cbn [length].
    split; [lia|]. split; [cbn; f_equal; lia|]. split; [|exact Q]. replace (zsum zs0 + z - zsum zs0 - z)%Z with 0%Z by lia. apply tick_0.
  Qed.
  Lemma krep_remove s v x : krep s (x :: v) -> krep (@remove_sum R DA s x) v.
  Proof.
    intros (zs & E & B & N & M & P & Q). destruct zs as [|z zs]; [discriminate|]. injection E as -> ->. cbn [map zsum fold_right] in *.
    change (fold_right Z.add 0%Z (map Z.abs zs)) with (zsum (map Z.abs zs)) in *. change (fold_right Z.add 0%Z zs) with (zsum zs) in *.
    pose proof (zsum_abs zs). pose proof (zsum_abs_pos zs).
    exists zs. split; [reflexivity|]. split; [lia|]. unfold remove_sum. rewrite Q, M. cbn [aopp Arith_double]. rewrite tick_opp.
    rewrite asub_0 by lia. rewrite (aadd_tick (z + zsum zs) (- z)) by lia. rewrite (asub_tick (z + zsum zs + - z)) by lia.
    rewrite (asub_tick _ (- z)) by lia. cbn [k_nobs k_sum k_add k_remove]. rewrite N. cbn [length Nat.pred].
    split; [reflexivity|]. split; [f_equal; lia|]. split; [exact P|]. replace (z + zsum zs + - z - (z + zsum zs) - - z)%Z with 0%Z by lia. apply tick_0.
  Qed.
  Lemma kahan_exact w l : (0 < w)%nat -> (forall i, (i < length l)%nat -> small (finite_vals (slice (S i - w) (S i) l))) ->
    @kahan_sum R DA w l = rolling w agg_sum l.
  Proof.
    intros Hw Hok. unfold kahan_sum, rolling.
    rewrite (guarded_roll (@add_sum R DA) (@remove_sum R DA) _ _ krep small (fun v => if Nat.leb w (length v) then agg_sum v else NaN)); auto.
    - exists []. cbn. repeat split; try lia; [symmetry; apply tick_0].
    - intros s v x. apply krep_add.
    - intros s v x. apply krep_remove.
    - intros s v (zs & -> & _ & N & M & _). unfold calc_sum, agg_sum. rewrite N, M, lsum_tick, map_length. reflexivity.
  Qed.
End Grid.

(** In exact arithmetic the compensation is always zero. *)
Lemma kahan_real w l : (0 < w)%nat -> @kahan_sum R Arith_R w l = rolling w agg_sum l.
Proof.
  intros Hw. unfold kahan_sum, rolling. rewrite (roll_spec (@add_sum R Arith_R) (@remove_sum R Arith_R) _ _
    (fun s v => k_nobs s = length v /\ k_sum s = lsum v /\ k_add s = 0 /\ k_remove s = 0) (fun v => if Nat.leb w (length v) then agg_sum v else NaN)); [reflexivity|exact Hw|..].
  - repeat split.
  - intros s v x (A & B & C & D). unfold add_sum, asub. cbn [k_nobs k_sum k_add k_remove aadd aopp Arith_R]. rewrite app_length, lsum_snoc, A, B, C, D. cbn [length].
    repeat split; [lia|ring|ring].
  - intros s v x (A & B & C & D). unfold remove_sum, asub. cbn [k_nobs k_sum k_add k_remove aadd aopp Arith_R]. rewrite A, B, C, D, lsum_cons. cbn [length Nat.pred].
    repeat split; ring.
  - intros s v (A & B & _). unfold calc_sum, agg_sum. now rewrite A, B.
Qed.
Lemma c115_exact w vn bn sn X : (0 < w)%nat -> vpin_running Arith_R w vn bn sn X = vpin w vn bn sn X.
Proof.
  intros Hw. unfold vpin_running, vpin. destruct (check_missing_columns _ _); [|reflexivity]. cbn [bind].
  destruct (column vn X); [|reflexivity]. cbn [bind]. destruct (column bn X); [|reflexivity]. cbn [bind]. destruct (column sn X); [|reflexivity]. cbn [bind].
  unfold vpin_values. rewrite !kahan_real by exact Hw. reflexivity.
Qed.
