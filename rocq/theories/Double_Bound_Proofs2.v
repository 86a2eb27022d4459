(** Consequences of the bounds: crossovers of decimal prices, and what earlier moves leave behind in an average. *)
From Coq Require Import Reals ZArith Lra Lia List String.
From Flocq Require Import Core.
From Verif Require Import Prelude PreludeFacts Num Series DailyVol_Model Feat_Model Feat_Spec Feat_Proofs Feat_Proofs3 Roll_Model Roll_Proofs Roll_Proofs2
  Double_Model Double_Spec Double_Proofs Double_Proofs2 Double_Bet_Proofs2 Double_Vpin_Model Double_Vpin_Proofs Double_Cross_Model Double_Cross_Proofs Double_Z_Proofs Double_Bound_Spec Double_Bound_Proofs.
Import ListNotations.
Local Open Scope R_scope.
Local Notation length := List.length.

(** ** Crossings of series that are close to others *)

Section Close.
  Variables (d : R) (fd fe sd se : list (ext R)) (n : nat).
  Hypothesis Lfd : length fd = n.
  Hypothesis Lfe : length fe = n.
  Hypothesis Lsd : length sd = n.
  Hypothesis Lse : length se = n.
  Hypothesis Hf : forall i x y, nth_error fd i = Some x -> nth_error fe i = Some y -> close_to d x y.
  Hypothesis Hs : forall i x y, nth_error sd i = Some x -> nth_error se i = Some y -> close_to d x y.
  Hypothesis Hfar : forall i a b, nth_error fe i = Some (Fin a) -> nth_error se i = Some (Fin b) -> 2 * d < Rabs (a - b).
  Definition same_side (f : ext R -> ext R -> bool) : Prop :=
    forall x x' y y', close_to d x x' -> close_to d y y' -> (forall a b, x' = Fin a -> y' = Fin b -> 2 * d < Rabs (a - b)) -> f x y = f x' y'.
  Lemma zip_cong f : same_side f -> zipw f fd sd = zipw f fe se.
  Proof.
    intros H. clear - H Lfd Lfe Lsd Lse Hf Hs Hfar. revert fe sd se n Lfd Lfe Lsd Lse Hf Hs Hfar.
    induction fd as [|x l IH]; intros [|x' l'] [|y m] [|y' m'] n Lfd Lfe Lsd Lse Hf Hs Hfar; cbn in *; try reflexivity; try lia.
    unfold zipw in *. cbn [combine map fst snd]. f_equal.
    - apply H; [apply (Hf 0%nat)|apply (Hs 0%nat)|intros a b -> ->; apply (Hfar 0%nat)]; reflexivity.
    - apply (IH l' m m' (Nat.pred n)); try lia; [intros i; apply (Hf (S i))|intros i; apply (Hs (S i))|intros i; apply (Hfar (S i))].
  Qed.
End Close.
Lemma side_lt d : same_side d eltb.
Proof.
  intros x x' y y' Hx Hy Hd. destruct x as [x| | |], x' as [x'| | |]; try easy. destruct y as [y| | |], y' as [y'| | |]; try easy.
  specialize (Hd x' y' eq_refl eq_refl). cbn in *. apply abs_le in Hx, Hy. unfold Rabs in Hd. destruct (Rcase_abs _) in Hd; destruct (Rlt_dec x y), (Rlt_dec x' y'); try reflexivity; lra.
Qed.
Lemma side_gt d : same_side d (fun f s => eltb s f).
Proof.
  intros x x' y y' Hx Hy Hd. apply (side_lt d); auto. intros a b -> ->. rewrite Rabs_minus_sym. now apply Hd.
Qed.
Lemma side_eq d : same_side d eeqb.
Proof.
  intros x x' y y' Hx Hy Hd. destruct x as [x| | |], x' as [x'| | |]; try easy. destruct y as [y| | |], y' as [y'| | |]; try easy.
  specialize (Hd x' y' eq_refl eq_refl). cbn in *. apply abs_le in Hx, Hy. unfold Rabs in Hd. destruct (Rcase_abs _) in Hd; destruct (Req_EM_T x y), (Req_EM_T x' y'); try reflexivity; lra.
Qed.
Lemma side_le d : same_side d eleb.
Proof. intros x x' y y' Hx Hy Hd. unfold eleb. now rewrite (side_lt d x x' y y'), (side_eq d x x' y y'). Qed.
Lemma side_ge d : same_side d (fun f s => eleb s f).
Proof.
  intros x x' y y' Hx Hy Hd. apply (side_le d); auto. intros a b -> ->. rewrite Rabs_minus_sym. now apply Hd.
Qed.
Lemma nth_firstn_some {A} (l : list A) n i x : nth_error (firstn n l) i = Some x -> nth_error l i = Some x.
Proof.
  intros H. destruct (Nat.lt_ge_cases i n) as [L|L]; [now rewrite nth_error_firstn_lt in H by exact L|].
  assert (E : nth_error (firstn n l) i = None) by (apply nth_error_None; pose proof (firstn_le_length n l); lia || (rewrite firstn_length; lia)). congruence.
Qed.
Lemma shift_close d fd fe i x y : 0 <= d -> length fd = length fe -> (forall i x y, nth_error fd i = Some x -> nth_error fe i = Some y -> close_to d x y) ->
  nth_error (shift1 fd) i = Some x -> nth_error (shift1 fe) i = Some y -> close_to d x y.
Proof.
  intros Hd L H Hx Hy. unfold shift1 in *. apply nth_firstn_some in Hx, Hy. destruct i as [|i]; cbn in Hx, Hy; [injection Hx as <-; injection Hy as <-; exact I|]. now apply (H i).
Qed.
Lemma shift_far d fe se i a b : (forall i a b, nth_error fe i = Some (Fin a) -> nth_error se i = Some (Fin b) -> 2 * d < Rabs (a - b)) ->
  nth_error (shift1 fe) i = Some (Fin a) -> nth_error (shift1 se) i = Some (Fin b) -> 2 * d < Rabs (a - b).
Proof.
  intros H Hx Hy. unfold shift1 in *. apply nth_firstn_some in Hx, Hy. destruct i as [|i]; cbn in Hx, Hy; [discriminate|]. now apply (H i).
Qed.
Lemma cross_close d idx fd fe sd se n : 0 <= d -> length fd = n -> length fe = n -> length sd = n -> length se = n ->
  (forall i x y, nth_error fd i = Some x -> nth_error fe i = Some y -> close_to d x y) ->
  (forall i x y, nth_error sd i = Some x -> nth_error se i = Some y -> close_to d x y) ->
  (forall i a b, nth_error fe i = Some (Fin a) -> nth_error se i = Some (Fin b) -> 2 * d < Rabs (a - b)) ->
  up_cross_indices idx fd sd = up_cross_indices idx fe se /\ down_cross_indices idx fd sd = down_cross_indices idx fe se.
Proof.
  intros Hd L1 L2 L3 L4 Hf Hs Hfar.
  assert (A : forall f, same_side d f -> zipw f fd sd = zipw f fe se) by (intros f Sf; now apply (zip_cong d fd fe sd se n)).
  assert (Bq : forall f, same_side d f -> zipw f (shift1 fd) (shift1 sd) = zipw f (shift1 fe) (shift1 se)).
  { intros f Sf. apply (zip_cong d _ _ _ _ n); rewrite ?shift1_length; auto.
    - intros i x y. apply (shift_close d); auto; congruence.
    - intros i x y. apply (shift_close d); auto; congruence.
    - intros i a b. now apply shift_far. }
  unfold up_cross_indices, down_cross_indices. split.
  - now rewrite (Bq eleb (side_le d)), (A _ (side_gt d)).
  - now rewrite (Bq _ (side_ge d)), (A eltb (side_lt d)).
Qed.

Lemma kahan_mean_len w l : length (@kahan_mean R DA w l) = length l. Proof. apply roll_len. Qed.
Lemma crossover_close d fast slow fill name X Y cx cy : 0 <= d -> f_index X = f_index Y -> lookup name X = Some cx -> lookup name Y = Some cy -> length cx = length cy ->
  (forall w, w = fast \/ w = slow -> forall i x y, nth_error (@kahan_mean R DA w cy) i = Some x -> nth_error (rolling w agg_mean cx) i = Some y -> close_to d x y) ->
  (forall i a b, nth_error (rolling fast agg_mean cx) i = Some (Fin a) -> nth_error (rolling slow agg_mean cx) i = Some (Fin b) -> 2 * d < Rabs (a - b)) ->
  crossover_running DA fast slow fill name Y = ma_crossover fast slow fill name X.
Proof.
  intros Hd Hi Hx Hy L Hc Hfar. unfold crossover_running, ma_crossover, column. rewrite Hx, Hy, Hi. cbn [bind].
  destruct (cross_close d (f_index Y) (@kahan_mean R DA fast cy) (rolling fast agg_mean cx) (@kahan_mean R DA slow cy) (rolling slow agg_mean cx) (length cx)) as [U D];
    rewrite ?kahan_mean_len, ?rolling_length; auto; try (now apply Hc; auto). rewrite U, D. reflexivity.
Qed.

Lemma margin_rows M w l : powerRZ 2 (-1000) <= M -> (0 < w)%nat -> (Z.of_nat (length l) * (Z.of_nat w + 2) <= 2 ^ 49)%Z -> held_below M l ->
  forall i x y, nth_error (@kahan_mean R DA w l) i = Some x -> nth_error (rolling w agg_mean l) i = Some y -> close_to (INR (length l) * M / 2 ^ 47) x y.
Proof.
  intros HM Hw HN Hl i x y Hx Hy. pose proof (mean_row M w (length l) HM Hw HN l i x y Hl (le_n _) Hx Hy) as C.
  assert (Hi : (i < length l)%nat). { rewrite <- (rolling_length w agg_mean l). apply nth_error_Some. congruence. }
  destruct x, y; auto. cbn [close_to] in *. eapply Rle_trans; [exact C|]. unfold Rdiv. apply Rmult_le_compat_r; [left; apply Rinv_0_lt_compat, pow_lt; lra|].
  apply Rmult_le_compat_r; [left; eapply M_pos; eauto|]. apply le_INR. lia.
Qed.
Lemma c120_crossover M fast slow fill name X c : powerRZ 2 (-1000) <= M -> (0 < fast)%nat -> (0 < slow)%nat ->
  (Z.of_nat (length c) * (Z.of_nat fast + 2) <= 2 ^ 49)%Z -> (Z.of_nat (length c) * (Z.of_nat slow + 2) <= 2 ^ 49)%Z ->
  lookup name X = Some c -> held_below M c ->
  (forall i a b, nth_error (rolling fast agg_mean c) i = Some (Fin a) -> nth_error (rolling slow agg_mean c) i = Some (Fin b) -> INR (length c) * M / 2 ^ 46 < Rabs (a - b)) ->
  crossover_running DA fast slow fill name X = ma_crossover fast slow fill name X.
Proof.
  intros HM Hf Hs Nf Ns Hc Hl Hfar. apply (crossover_close (INR (length c) * M / 2 ^ 47) fast slow fill name X X c c); auto.
  - apply Rmult_le_pos; [apply Rmult_le_pos; [apply pos_INR|left; eapply M_pos; eauto]|left; apply Rinv_0_lt_compat, pow_lt; lra].
  - intros w [-> | ->]; now apply margin_rows.
  - intros i a b Ha Hb. pose proof (Hfar i a b Ha Hb) as H. replace (2 * (INR (length c) * M / 2 ^ 47)) with (INR (length c) * M / 2 ^ 46); [exact H|]. field.
Qed.

(** ** Decimal prices *)

Section Decimals.
  Variables (tick M : R) (prices : list (option Z)).
  Hypothesis HM : powerRZ 2 (-1000) <= M.
  Hypothesis Hp : forall z, In (Some z) prices -> Rabs (IZR z * tick) <= M / 2.
  Local Notation decimal := (Double_Bound_Spec.decimal tick).
  Local Notation stored := (Double_Bound_Spec.stored tick).
  Let delta := eps64 * M.
  Lemma stored_error z : In (Some z) prices -> Rabs (to_double (IZR z * tick) - IZR z * tick) <= delta.
  Proof.
    intros Hz. eapply Rle_trans; [apply error_any|]. specialize (Hp z Hz). pose proof (tiny_M M 1 0 HM Nat.lt_0_1) as T. pose proof (M_pos M HM). unfold delta, eps64 in *. lra.
  Qed.
  Lemma stored_below : held_below M (map stored prices).
  Proof.
    intros v Hv. apply in_map_iff in Hv as ([z|] & E & Hz); [|discriminate]. injection E as <-. split; [apply to_double_is|].
    pose proof (stored_error z Hz) as S. specialize (Hp z Hz). pose proof (M_pos M HM). unfold delta, eps64 in *. apply abs_le in S, Hp. apply Rabs_le. lra.
  Qed.
  Definition somes (s : list (option Z)) : list Z := flat_map (fun p => match p with Some z => [z] | None => [] end) s.
  Lemma vals_decimal s : finite_vals (map decimal s) = map (fun z => IZR z * tick) (somes s).
  Proof. induction s as [|[z|] s IH]; cbn; [reflexivity|f_equal; exact IH|exact IH]. Qed.
  Lemma vals_stored s : finite_vals (map stored s) = map (fun z => to_double (IZR z * tick)) (somes s).
  Proof. induction s as [|[z|] s IH]; cbn; [reflexivity|f_equal; exact IH|exact IH]. Qed.
  Lemma sums_close zs : (forall z, In z zs -> In (Some z) prices) -> Rabs (lsum (map (fun z => to_double (IZR z * tick)) zs) - lsum (map (fun z => IZR z * tick) zs)) <= INR (length zs) * delta.
  Proof.
    induction zs as [|z zs IH]; intros H; [cbn; rewrite Rminus_diag_eq, Rabs_R0 by reflexivity; lra|]. cbn [map]. rewrite !lsum_cons. replace (INR (length (z :: zs))) with (INR (length zs) + 1) by (rewrite <- S_INR; reflexivity).
    specialize (IH ltac:(intros; apply H; now right)). pose proof (stored_error z (H z (or_introl eq_refl))) as S. apply abs_le in IH, S. apply Rabs_le. lra.
  Qed.
  Lemma in_somes w i z : In z (somes (slice (S i - w) (S i) prices)) -> In (Some z) prices.
  Proof.
    intros Hz. unfold somes in Hz. apply in_flat_map in Hz as ([y|] & Hy & Hz); cbn in Hz; [|destruct Hz]. destruct Hz as [->|[]].
    unfold slice in Hy. apply in_firstn in Hy. rewrite <- (firstn_skipn (S i - w) prices). apply in_or_app. now right.
  Qed.
  Lemma means_close w i x y : (0 < w)%nat -> nth_error (rolling w agg_mean (map stored prices)) i = Some x -> nth_error (rolling w agg_mean (map decimal prices)) i = Some y -> close_to delta x y.
  Proof.
    intros Hw Hx Hy. assert (Hi : (i < length prices)%nat). { rewrite <- (map_length stored prices), <- (rolling_length w agg_mean). apply nth_error_Some. congruence. }
    unfold rolling in Hx, Hy. rewrite map_length, nth_error_map, nth_error_seq_lt in Hx, Hy by exact Hi. cbn [option_map Nat.add] in Hx, Hy.
    apply (f_equal (fun o => match o with Some z => z | None => NaN end)) in Hx, Hy. cbv beta iota zeta in Hx, Hy. subst x y.
    rewrite !slice_map, vals_decimal, vals_stored, !map_length. pose proof (in_somes w i) as Hin. set (zs := somes (slice (S i - w) (S i) prices)) in *. clearbody zs.
    destruct (Nat.leb_spec w (length zs)) as [L|L]; [|exact I].
    replace (agg_mean (map (fun z => to_double (IZR z * tick)) zs)) with (Fin (lsum (map (fun z => to_double (IZR z * tick)) zs) / INR (length zs))) by (destruct zs; [cbn in L; lia|]; unfold agg_mean, mean; cbn [map]; cbn [List.length]; now rewrite map_length).
    replace (agg_mean (map (fun z => IZR z * tick) zs)) with (Fin (lsum (map (fun z => IZR z * tick) zs) / INR (length zs))) by (destruct zs; [cbn in L; lia|]; unfold agg_mean, mean; cbn [map]; cbn [List.length]; now rewrite map_length).
    cbn [close_to]. pose proof (sums_close zs ltac:(intros; now apply Hin)) as S. assert (Ln : 0 < INR (length zs)) by (apply lt_0_INR; lia). unfold Rdiv. rewrite <- Rmult_minus_distr_r, Rabs_mult, (Rabs_pos_eq (/ _)) by (left; now apply Rinv_0_lt_compat).
    apply Rmult_le_reg_r with (INR (length zs)); [exact Ln|]. rewrite Rmult_assoc, Rinv_l by lra. lra.
  Qed.
  (** Averages of whole ticks that differ are at least tick / (fast * slow) apart. *)
  Lemma lsum_ticks zs : lsum (map (fun z => IZR z * tick) zs) = IZR (zsum zs) * tick.
  Proof. unfold zsum. induction zs as [|z zs IH]; [cbn; lra|]. cbn [map fold_right]. rewrite lsum_cons, IH, plus_IZR. ring. Qed.
  Lemma mean_ticks w i a : (0 < w)%nat -> nth_error (rolling w agg_mean (map decimal prices)) i = Some (Fin a) -> exists z, a = IZR z * tick / INR w.
  Proof.
    intros Hw Hy. assert (Hi : (i < length prices)%nat). { rewrite <- (map_length decimal prices), <- (rolling_length w agg_mean). apply nth_error_Some. congruence. }
    unfold rolling in Hy. rewrite map_length, nth_error_map, nth_error_seq_lt in Hy by exact Hi. cbn [option_map Nat.add] in Hy.
    apply (f_equal (fun o => match o with Some z => z | None => NaN end)) in Hy. cbv beta iota zeta in Hy. rewrite slice_map, vals_decimal, map_length in Hy.
    assert (Lw : (length (somes (slice (S i - w) (S i) prices)) <= w)%nat).
    { transitivity (length (slice (S i - w) (S i) prices)); [unfold somes; clear; induction (slice (S i - w) (S i) prices) as [|[z|] s IH]; cbn; lia|]. unfold slice. rewrite firstn_length, skipn_length. lia. }
    set (zs := somes (slice (S i - w) (S i) prices)) in *. clearbody zs. destruct (Nat.leb_spec w (length zs)) as [L|L]; [|discriminate].
    replace (agg_mean (map (fun z => IZR z * tick) zs)) with (Fin (lsum (map (fun z => IZR z * tick) zs) / INR (length zs))) in Hy by (destruct zs; [cbn in L; lia|]; unfold agg_mean, mean; cbn [map]; cbn [List.length]; now rewrite map_length).
    injection Hy as <-. exists (zsum zs). rewrite lsum_ticks. do 2 f_equal. lia.
  Qed.
End Decimals.

Lemma c120_decimals tick M fast slow fill name X Y (prices : list (option Z)) : 0 < tick -> powerRZ 2 (-1000) <= M -> (0 < fast)%nat -> (0 < slow)%nat ->
  (forall z, In (Some z) prices -> Rabs (IZR z * tick) <= M / 2) ->
  (Z.of_nat (length prices) * (Z.of_nat fast + 2) <= 2 ^ 49)%Z -> (Z.of_nat (length prices) * (Z.of_nat slow + 2) <= 2 ^ 49)%Z ->
  INR (length prices) * M / 2 ^ 45 * INR fast * INR slow <= tick ->
  f_index X = f_index Y -> lookup name X = Some (map (decimal tick) prices) -> lookup name Y = Some (map (stored tick) prices) ->
  (forall i a b, nth_error (rolling fast agg_mean (map (decimal tick) prices)) i = Some (Fin a) -> nth_error (rolling slow agg_mean (map (decimal tick) prices)) i = Some (Fin b) -> a <> b) ->
  crossover_running DA fast slow fill name Y = ma_crossover fast slow fill name X.
Proof.
  intros Ht HM Hf Hs Hp Nf Ns Hsize Hidx HX HY Htie. pose proof (M_pos M HM) as P. set (n := INR (length prices)) in *.
  assert (Pn : 0 <= n) by apply pos_INR.
  apply (crossover_close ((n + 1 / 2) * M / 2 ^ 47) fast slow fill name X Y (map (decimal tick) prices) (map (stored tick) prices)); auto.
  - apply Rmult_le_pos; [apply Rmult_le_pos; lra|left; apply Rinv_0_lt_compat, pow_lt; lra].
  - now rewrite !map_length.
  - intros w Hw i x y Hx Hy. assert (W : (0 < w)%nat) by (destruct Hw as [-> | ->]; assumption).
    assert (NW : (Z.of_nat (length (map (stored tick) prices)) * (Z.of_nat w + 2) <= 2 ^ 49)%Z) by (rewrite map_length; destruct Hw as [-> | ->]; assumption).
    destruct (nth_error (rolling w agg_mean (map (stored tick) prices)) i) as [m|] eqn:Em.
    + pose proof (margin_rows M w _ HM W NW (stored_below tick M prices HM Hp) i x m Hx Em) as C1. pose proof (means_close tick M prices HM Hp w i m y W Em Hy) as C2.
      rewrite map_length in C1. fold n in C1. destruct x, m, y; try easy. cbn [close_to] in *. rewrite (pow_IZR 2 47) in *. change (IZR (2 ^ Z.of_nat 47)) with 140737488355328 in *. unfold eps64 in C2.
      assert (0 <= n * M) by (apply Rmult_le_pos; lra). set (k := n * M) in *. replace ((n + 1 / 2) * M) with (k + M / 2) by (unfold k; lra). apply abs_le in C1, C2. apply Rabs_le. lra.
    + exfalso. apply nth_error_None in Em. rewrite rolling_length, map_length in Em. assert (i < length (rolling w agg_mean (map (decimal tick) prices)))%nat by (apply nth_error_Some; congruence). rewrite rolling_length, map_length in H. lia.
  - intros i a b Ha Hb. destruct (mean_ticks tick prices fast i a Hf Ha) as (z & ->). destruct (mean_ticks tick prices slow i b Hs Hb) as (z' & ->).
    pose proof (Htie i _ _ Ha Hb) as D. assert (F : 1 <= INR fast) by (change 1 with (INR 1); apply le_INR; lia). assert (S : 1 <= INR slow) by (change 1 with (INR 1); apply le_INR; lia).
    assert (N1 : 1 <= n).
    { unfold n. change 1 with (INR 1). apply le_INR. assert (i < length (rolling fast agg_mean (map (decimal tick) prices)))%nat by (apply nth_error_Some; congruence). rewrite rolling_length, map_length in H. lia. }
    assert (K : tick / (INR fast * INR slow) <= Rabs (IZR z * tick / INR fast - IZR z' * tick / INR slow)).
    { replace (IZR z * tick / INR fast - IZR z' * tick / INR slow) with (IZR (z * Z.of_nat slow - z' * Z.of_nat fast) * (tick / (INR fast * INR slow))) by (rewrite minus_IZR, !mult_IZR, <- !INR_IZR_INZ; field; lra).
      assert (T0 : 0 < tick / (INR fast * INR slow)) by (apply Rdiv_lt_0_compat; nra). rewrite Rabs_mult, (Rabs_pos_eq (tick / _)) by lra. rewrite <- abs_IZR.
      assert (1 <= IZR (Z.abs (z * Z.of_nat slow - z' * Z.of_nat fast))); [|nra]. apply IZR_le.
      assert (z * Z.of_nat slow - z' * Z.of_nat fast <> 0)%Z; [|lia]. intros E. apply D. assert (IZR z * INR slow = IZR z' * INR fast).
      { rewrite !INR_IZR_INZ, <- !mult_IZR. f_equal. lia. }
      apply Rmult_eq_reg_r with (INR fast * INR slow); [|nra]. replace (IZR z * tick / INR fast * (INR fast * INR slow)) with (IZR z * INR slow * tick) by (field; lra).
      replace (IZR z' * tick / INR slow * (INR fast * INR slow)) with (IZR z' * INR fast * tick) by (field; lra). now rewrite H. }
    eapply Rlt_le_trans; [|exact K]. apply Rmult_lt_reg_r with (INR fast * INR slow); [nra|]. replace (tick / (INR fast * INR slow) * (INR fast * INR slow)) with tick by (field; lra).
    eapply Rlt_le_trans; [|exact Hsize]. replace (n * M / 2 ^ 45 * INR fast * INR slow) with (n * M / 2 ^ 45 * (INR fast * INR slow)) by ring.
    apply Rmult_lt_compat_r; [nra|]. rewrite (pow_IZR 2 47), (pow_IZR 2 45). change (IZR (2 ^ Z.of_nat 47)) with 140737488355328. change (IZR (2 ^ Z.of_nat 45)) with 35184372088832.
    assert (M <= n * M) by nra. replace ((n + 1 / 2) * M) with (n * M + M / 2) by lra. lra.
Qed.
