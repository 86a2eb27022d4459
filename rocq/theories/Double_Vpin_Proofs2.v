(** VPIN on volumes that are multiples of a power of two: the exact value, rounded once. *)
From Coq Require Import Reals ZArith Lra Lia List String.
From Verif Require Import Prelude PreludeFacts Num Series DailyVol_Model Feat_Model Feat_Spec Feat_Proofs Feat_Proofs3 Feat_Proofs5 Feat_Proofs6 Roll_Model Roll_Proofs
  Double_Model Double_Spec Double_Proofs Double_Proofs2 Double_Vpin_Model Double_Vpin_Spec Double_Vpin_Proofs.
Import ListNotations.
Local Open Scope R_scope.

Lemma small_window e l : (fold_right Z.add 0 (map (fun v => match v with Some z => Z.abs z | None => 0 end) l) < 2 ^ 53)%Z ->
  small e (finite_vals (map (in_double e) l)).
Proof.
  intros H. exists (flat_map (fun v => match v with Some z => [z] | None => [] end) l). split.
  - clear H. induction l as [|[z|] l IH]; cbn; [reflexivity|f_equal; exact IH|exact IH].
  - eapply Z.le_lt_trans; [|exact H]. clear H. unfold zsum. induction l as [|[z|] l IH]; cbn -[Z.abs] in *; lia.
Qed.
Lemma slice_map {A B} (f : A -> B) i j l : slice i j (map f l) = map f (slice i j l).
Proof. unfold slice. now rewrite skipn_map, firstn_map. Qed.
Lemma c115_sums e w l : (-1074 <= e)%Z -> (0 < w)%nat -> (forall i, (i < length l)%nat -> (window_size w l i < 2 ^ 53)%Z) ->
  @kahan_sum R DA w (map (in_double e) l) = rolling w agg_sum (map (in_double e) l).
Proof.
  intros He Hw H. apply (kahan_exact e He); [exact Hw|]. intros i Hi. rewrite map_length in Hi. rewrite slice_map. apply small_window.
  specialize (H i Hi). unfold window_size in H. now rewrite Nat.add_1_r in H.
Qed.

Lemma eabs_same x : @eabs R DA x = @eabs R Arith_R x. Proof. destruct x; reflexivity. Qed.
Definition imbalance (bars : list (option (Z * Z))) : list (option Z) := map (option_map (fun p => Z.abs (fst p - snd p))) bars.
Lemma imbalance_double e (He : (-1074 <= e)%Z) (A : Arith R) bars : A = DA \/ A = Arith_R ->
  (forall b s, In (Some (b, s)) bars -> (0 <= b /\ 0 <= s /\ b + s < 2 ^ 53)%Z) ->
  map eabs (zipw esub (map (in_double e) (bought bars)) (map (in_double e) (sold bars))) = map (in_double e) (imbalance bars).
Proof.
  intros HA H. unfold zipw, bought, sold, imbalance. rewrite !map_map. induction bars as [|[[b s]|] bars IH]; [reflexivity| |].
  - cbn [map combine option_map fst snd]. rewrite IH by (intros; apply H; now right). f_equal. cbn [in_double].
    destruct (H b s (or_introl eq_refl)) as (B & C & D). fold (tick e b) (tick e s) (tick e (Z.abs (b - s))).
    assert (E : @esub R A (Fin (tick e b)) (Fin (tick e s)) = Fin (tick e (b - s))).
    { unfold esub. cbn [eopp eadd]. f_equal. destruct HA as [-> | ->]; cbn [aopp aadd Arith_double Arith_R]; rewrite tick_opp, tick_add; [|reflexivity].
      apply tick_id; [exact He|]. lia. }
    rewrite E. cbn [eabs]. f_equal. assert (P : 0 < powerRZ 2 e) by (apply powerRZ_lt; lra).
    replace (@altb R A (tick e (b - s)) (@a0 R A)) with (if Rlt_dec (tick e (b - s)) 0 then true else false) by (destruct HA as [-> | ->]; reflexivity).
    replace (@aopp R A (tick e (b - s))) with (tick e (- (b - s))) by (rewrite <- tick_opp; destruct HA as [-> | ->]; reflexivity).
    destruct (Rlt_dec (tick e (b - s)) 0) as [L|L]; unfold tick in *; f_equal; apply IZR_eq.
    + assert (IZR (b - s) < 0) as L' by nra. apply lt_IZR in L'. lia.
    + assert (0 <= IZR (b - s)) as L' by nra. apply le_IZR in L'. lia.
  - cbn [map combine option_map fst snd in_double]. rewrite IH by (intros; apply H; now right). reflexivity.
Qed.

Lemma nearest_0 : nearest 0 0.
Proof. split; [apply is_double_0|]. intros z _. rewrite Rminus_0_r, Rabs_R0. apply Rabs_pos. Qed.
Lemma ediv_rounds a b : rounds_to (@ediv R Arith_R a b) (@ediv R DA a b).
Proof.
  destruct a as [a| | |], b as [b| | |]; cbn [ediv]; try reflexivity; try (cbn; exists 0; split; [reflexivity|apply nearest_0]).
  - cbn [aeqb Arith_R Arith_double a0]. destruct (Req_EM_T b 0).
    + change (@asign R DA a) with (@asign R Arith_R a). now destruct (asign a).
    + exists (to_double (a * / b)). split; [reflexivity|]. apply to_double_nearest.
  - change (@asign R DA b) with (@asign R Arith_R b). now destruct (asign b).
  - change (@asign R DA b) with (@asign R Arith_R b). now destruct (asign b).
Qed.
Lemma forall2_firstn {A B} (P : A -> B -> Prop) n a b : Forall2 P a b -> Forall2 P (firstn n a) (firstn n b).
Proof. intros H. revert n. induction H; intros [|n]; cbn; constructor; auto. Qed.
Lemma forall2_skipn {A B} (P : A -> B -> Prop) n a b : Forall2 P a b -> Forall2 P (skipn n a) (skipn n b).
Proof. intros H. revert n. induction H; intros [|n]; cbn; try constructor; auto. Qed.
Lemma rounds_nan x y : rounds_to x y -> is_nan x = is_nan y.
Proof. destruct x; cbn; [intros (b & -> & _); reflexivity|intros ->; reflexivity..]. Qed.
Lemma no_nan_A {A} `{Arith A} w (l : list (ext A)) : existsb is_nan (skipn w (firstn w l ++ map (fun x => if is_nan x then Fin a0 else x) (skipn w l))) = false.
Proof.
  destruct (Nat.le_gt_cases w (length l)) as [L|L].
  - rewrite skipn_app, skipn_firstn_comm, firstn_length, Nat.min_l, Nat.sub_diag by exact L. cbn [firstn app skipn].
    induction (skipn w l) as [|x r IH]; [reflexivity|]. cbn [map existsb]. rewrite IH. now destruct x.
  - rewrite (skipn_all2 l) by lia. cbn [map]. rewrite app_nil_r. rewrite skipn_all2; [reflexivity|]. rewrite firstn_length. lia.
Qed.
Lemma never_fails {A} `{Arith A} w v b s : exists out, vpin_values w v b s = Ok out.
Proof. unfold vpin_values. cbv zeta. rewrite no_nan_A. eexists. reflexivity. Qed.
Lemma c115_values e w bars : (-1074 <= e)%Z -> (0 < w)%nat -> (forall b s, In (Some (b, s)) bars -> (0 <= b /\ 0 <= s)%Z) ->
  (forall i, (i < length bars)%nat -> (window_size w (traded bars) i < 2 ^ 53)%Z) ->
  exists out out', @vpin_values R Arith_R w (map (in_double e) (traded bars)) (map (in_double e) (bought bars)) (map (in_double e) (sold bars)) = Ok out /\
    @vpin_values R DA w (map (in_double e) (traded bars)) (map (in_double e) (bought bars)) (map (in_double e) (sold bars)) = Ok out' /\ Forall2 rounds_to out out'.
Proof.
  intros He Hw Hpos Hsize.
  assert (HB : forall b s, In (Some (b, s)) bars -> (0 <= b /\ 0 <= s /\ b + s < 2 ^ 53)%Z).
  { intros b s Hin. destruct (Hpos b s Hin) as [B C]. repeat split; auto. apply In_nth_error in Hin as [i Hi].
    assert (Li : (i < length bars)%nat) by (apply nth_error_Some; congruence). specialize (Hsize i Li). eapply Z.le_lt_trans; [|exact Hsize].
    unfold window_size. assert (Hin : In (Some (b + s)%Z) (slice (i + 1 - w) (i + 1) (traded bars))).
    { unfold slice, traded. rewrite skipn_map, firstn_map. apply in_map_iff. exists (Some (b, s)). split; [reflexivity|].
      apply nth_error_In with (n := (w - 1 - (w - (i + 1)))%nat). rewrite nth_error_firstn_lt by lia. rewrite nth_error_skipn''. rewrite <- Hi. f_equal. lia. }
    clear - Hin B C. induction (slice _ _ _) as [|x l IH]; [destruct Hin|]. cbn -[Z.abs].
    assert (Pos : (0 <= fold_right Z.add 0 (map (fun v => match v with Some z => Z.abs z | None => 0 end) l))%Z)
      by (clear; induction l as [|[]]; cbn -[Z.abs]; lia).
    destruct Hin as [-> |Hin]; [lia|]. specialize (IH Hin). destruct x; lia. }
  assert (Himb : forall i, (i < length (imbalance bars))%nat -> (window_size w (imbalance bars) i < 2 ^ 53)%Z).
  { intros i Hi. unfold imbalance in Hi. rewrite map_length in Hi. specialize (Hsize i Hi). eapply Z.le_lt_trans; [|exact Hsize].
    unfold window_size, imbalance, traded. rewrite !slice_map.
    assert (HS : forall b s, In (Some (b, s)) (slice (i + 1 - w) (i + 1) bars) -> (0 <= b /\ 0 <= s)%Z).
    { intros b s Hin. apply Hpos. unfold slice in Hin. apply in_firstn in Hin. rewrite <- (firstn_skipn (i + 1 - w) bars). apply in_or_app. now right. }
    clear - HS. induction (slice _ _ bars) as [|[[b s]|] l IH]; [reflexivity| |]; cbn -[Z.abs] in *.
    - specialize (IH ltac:(intros; apply HS; now right)). destruct (HS b s (or_introl eq_refl)). lia.
    - apply IH. intros. apply HS. now right. }
  unfold vpin_values. cbv zeta. rewrite !no_nan_A. cbn [raise_if bind]. do 2 eexists. split; [reflexivity|]. split; [reflexivity|].
  rewrite (imbalance_double e He Arith_R) by auto. rewrite (imbalance_double e He DA) by auto.
  rewrite !c115_sums by (auto; unfold traded; now rewrite map_length). rewrite !kahan_real by auto.
  set (d := rolling w agg_sum (map (in_double e) (imbalance bars))). set (t := rolling w agg_sum (map (in_double e) (traded bars))).
  assert (F : Forall2 rounds_to (zipw (@ediv R Arith_R) d t) (zipw (@ediv R DA) d t)).
  { unfold zipw. induction (combine d t) as [|p r IH]; cbn; constructor; [apply ediv_rounds|exact IH]. }
  apply Forall2_app; [now apply forall2_firstn|]. apply (forall2_skipn _ w) in F. induction F as [|x y a b Hxy F IH]; cbn [map]; constructor; [|exact IH].
  rewrite <- (rounds_nan _ _ Hxy). destruct (is_nan x); [|exact Hxy]. exists 0. split; [reflexivity|apply nearest_0].
Qed.
