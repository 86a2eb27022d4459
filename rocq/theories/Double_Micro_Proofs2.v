(** The microstructural features in doubles when the price never moves. *)
From Coq Require Import Reals ZArith Lra Lia List String.
From Verif Require Import Prelude PreludeFacts Num Series DailyVol_Model Feat_Model Feat_Spec Feat_Proofs Feat_Proofs3 Feat_Proofs6 Roll_Model Roll_Proofs Roll_Proofs2
  Double_Model Double_Spec Double_Proofs Double_Proofs2 Rounding_Arith_Proofs Double_Vpin_Model Double_Vpin_Proofs Double_Cross_Model Double_Cross_Proofs Double_Cross_Proofs2 Double_Z_Proofs Double_Ewm_Proofs
  Double_Micro_Model Double_Micro_Spec Double_Micro_Proofs.
Import ListNotations.
Local Open Scope R_scope.
Local Notation length := List.length.

Definition lev (p : R) (k i : nat) : ext R := if Nat.ltb i k then NaN else Fin p.
Lemma level_repeat p n : repeat (Fin p) n = level p 0 n.
Proof. unfold level. generalize 0%nat at 2. induction n as [|n IH]; intros a; [reflexivity|]. cbn. f_equal. apply IH. Qed.
Lemma level_len p k n : length (level p k n) = n. Proof. unfold level. now rewrite map_length, seq_length. Qed.
Lemma slice_seq a b n : (b <= n)%nat -> (a <= b)%nat -> slice a b (seq 0 n) = seq a (b - a).
Proof.
  intros Hb Ha. unfold slice. replace n with (a + ((b - a) + (n - b)))%nat by lia. rewrite seq_app, skipn_app, seq_length, skipn_all2 by (rewrite seq_length; lia).
  rewrite Nat.sub_diag. cbn [skipn app Nat.add]. rewrite seq_app, firstn_app, seq_length, firstn_all2 by (rewrite seq_length; lia). rewrite Nat.sub_diag. cbn [firstn]. apply app_nil_r.
Qed.
Lemma vals_level p k : forall m a, finite_vals (map (lev p k) (seq a m)) = repeat p (m - (k - a)).
Proof.
  induction m as [|m IH]; intros a; [reflexivity|]. cbn [seq map]. unfold finite_vals. cbn [flat_map]. change (flat_map _ ?l) with (finite_vals l). rewrite IH. unfold lev.
  destruct (Nat.ltb_spec a k) as [L|L]; cbn [app].
  - f_equal. lia.
  - replace (k - a)%nat with 0%nat by lia. replace (k - S a)%nat with 0%nat by lia. rewrite !Nat.sub_0_r. reflexivity.
Qed.
Lemma rolling_level w agg p r k n : (0 < w)%nat -> agg (repeat p w) = Fin r -> rolling w agg (level p k n) = level r (k + w - 1) n.
Proof.
  intros Hw Ha. unfold rolling. rewrite level_len. unfold level. apply map_ext_in. intros i Hi. apply in_seq in Hi. cbv zeta. rewrite slice_map, slice_seq by lia.
  change (fun i0 : nat => if Nat.ltb i0 k then NaN else Fin p) with (lev p k). rewrite vals_level, repeat_length.
  destruct (Nat.leb_spec w (S i - (S i - w) - (k - (S i - w)))) as [L|L]; destruct (Nat.ltb_spec i (k + w - 1)) as [M|M]; try lia; [|reflexivity].
  replace (S i - (S i - w) - (k - (S i - w)))%nat with w by lia. exact Ha.
Qed.
Lemma sum_zero w : agg_sum (repeat 0 w) = Fin 0.
Proof. unfold agg_sum. f_equal. induction w as [|w IH]; [reflexivity|]. cbn [repeat]. rewrite lsum_cons, IH. lra. Qed.
Lemma mean_zero w : (0 < w)%nat -> agg_mean (repeat 0 w) = Fin 0.
Proof.
  intros Hw. pose proof (sum_zero w) as S. injection S as S. unfold agg_mean. destruct w as [|w]; [lia|]. cbn [repeat]. f_equal. unfold mean. change (0 :: repeat 0 w) with (repeat 0 (Datatypes.S w)). rewrite S. unfold Rdiv. lra.
Qed.
Lemma max_level p w : (0 < w)%nat -> agg_max (repeat p w) = Fin p.
Proof. destruct w as [|w]; [lia|]. intros _. cbn. f_equal. induction w as [|w IH]; [reflexivity|]. cbn. rewrite Rmax_left by lra. exact IH. Qed.
Lemma min_level p w : (0 < w)%nat -> agg_min (repeat p w) = Fin p.
Proof. destruct w as [|w]; [lia|]. intros _. cbn. f_equal. induction w as [|w IH]; [reflexivity|]. cbn. rewrite Rmin_left by lra. exact IH. Qed.

Lemma small_zero n : small 0 (repeat 0 n).
Proof. exists (repeat 0%Z n). split; [induction n as [|n IH]; [reflexivity|]; cbn; rewrite <- IH; f_equal; unfold tick; lra|]. induction n as [|n IH]; [reflexivity|]. cbn. exact IH. Qed.
Lemma small_level w k n i : (i < length (level 0 k n))%nat -> small 0 (finite_vals (slice (S i - w) (S i) (level 0 k n))).
Proof. rewrite level_len. intros Hi. unfold level. rewrite slice_map, slice_seq by lia. change (fun i0 : nat => if Nat.ltb i0 k then NaN else Fin 0) with (lev 0 k). rewrite vals_level. apply small_zero. Qed.
Lemma mean_level w k n : (0 < w)%nat -> (Z.of_nat w <= 2 ^ 53)%Z -> @kahan_mean R DA w (level 0 k n) = level 0 (k + w - 1) n.
Proof.
  intros Hw Hw'. rewrite (mean_exact 0 ltac:(lia) w) by (auto using small_level). rewrite (rolling_level w agg_mean 0 0) by (auto using mean_zero).
  unfold level. rewrite map_map. apply map_ext. intros i. destruct (Nat.ltb _ _); cbn [rnd]; [reflexivity|]. now rewrite to_double_0.
Qed.
Lemma sum_level w k n : (0 < w)%nat -> @kahan_sum R DA w (level 0 k n) = level 0 (k + w - 1) n.
Proof. intros Hw. rewrite (kahan_exact 0 ltac:(lia) w) by (auto using small_level). apply rolling_level; auto using sum_zero. Qed.

Lemma map_level f p r k n : f NaN = NaN -> f (Fin p) = Fin r -> map f (level p k n) = level r k n.
Proof. intros H1 H2. unfold level. rewrite map_map. apply map_ext. intros i. destruct (Nat.ltb i k); auto. Qed.
Lemma zipw_level f p r q k j n : (forall x, f NaN x = NaN) -> (forall x, f x NaN = NaN) -> f (Fin p) (Fin r) = Fin q -> zipw f (level p k n) (level r j n) = level q (Nat.max k j) n.
Proof.
  intros H1 H2 H3. unfold level. rewrite zipw_diag. apply map_ext. intros i.
  destruct (Nat.ltb_spec i k), (Nat.ltb_spec i j), (Nat.ltb_spec i (Nat.max k j)); auto; lia.
Qed.
Lemma shift_level p k n : shift1 (level p k n) = level p (S k) n.
Proof.
  unfold shift1. rewrite level_len. destruct n as [|n]; [reflexivity|]. cbn [firstn].
  replace (firstn n (level p k (S n))) with (level p k n).
  - unfold level. cbn [seq map]. f_equal. rewrite <- seq_shift, map_map. apply map_ext. intros i. reflexivity.
  - unfold level. rewrite firstn_map, seq_S, firstn_app, seq_length, Nat.sub_diag, firstn_all2 by (rewrite seq_length; lia). now rewrite app_nil_r.
Qed.
Lemma esub_nan_l x : @esub R DA NaN x = NaN. Proof. now destruct x. Qed.
Lemma esub_nan_r x : @esub R DA x NaN = NaN. Proof. now destruct x. Qed.
Lemma sub_self p : @esub R DA (Fin p) (Fin p) = Fin 0.
Proof. change (@esub R DA (Fin p) (Fin p)) with (Fin (@asub R DA p p)). f_equal. apply sub_same. Qed.
Lemma diff_level p n : @diff R DA (level p 0 n) = level 0 1 n.
Proof. unfold diff. rewrite shift_level, (zipw_level _ p p 0) by (auto using esub_nan_l, esub_nan_r, sub_self). reflexivity. Qed.
Lemma abs_0 : @eabs R DA (Fin 0) = Fin 0.
Proof. cbn. destruct (Rlt_dec 0 0); [lra|reflexivity]. Qed.
Definition positive (x : ext R) : Prop := exists v, x = Fin v /\ 0 < v.
Lemma div_level k n v : length v = n -> Forall positive v -> zipw (@ediv R DA) (level 0 k n) v = level 0 k n.
Proof.
  intros Hn F. unfold level. revert n Hn. assert (G : forall a n, length v = n -> zipw (@ediv R DA) (map (lev 0 k) (seq a n)) v = map (lev 0 k) (seq a n)); [|intros n; apply G]. induction F as [|x v (u & -> & Hu) F IH]; intros a n Hn; destruct n; try discriminate; [reflexivity|].
  unfold zipw in *. cbn [seq map combine fst snd]. f_equal; [|apply IH; now injection Hn].
  unfold lev. destruct (Nat.ltb a k); [reflexivity|]. cbn [ediv]. change (@aeqb R DA u (@a0 R DA)) with (if Req_EM_T u 0 then true else false). destruct (Req_EM_T u 0); [lra|].
  f_equal. apply div_0.
Qed.
Lemma ratio_1 a : 0 < a -> @ediv R DA (Fin a) (Fin a) = Fin 1.
Proof.
  intros Ha. cbn [ediv]. change (@aeqb R DA a (@a0 R DA)) with (if Req_EM_T a 0 then true else false). destruct (Req_EM_T a 0); [lra|]. f_equal. unfold adiv. cbn [amul ainv Arith_double].
  rewrite Rinv_r by lra. apply to_double_id. apply is_double_1.
Qed.
Lemma ratios_1 v : Forall positive v -> zipw (@ediv R DA) v v = level 1 0 (length v).
Proof.
  intros F. rewrite <- level_repeat. unfold zipw. induction F as [|x v (u & -> & Hu) F IH]; [reflexivity|]. cbn [combine map fst snd length repeat]. rewrite ratio_1 by exact Hu. f_equal. exact IH.
Qed.
Lemma nlog_1 log : log 1 = 0 -> nlog log (Fin 1) = Fin 0.
Proof. intros H. cbn. destruct (Rlt_dec 0 1); [|lra]. now rewrite H. Qed.
Lemma square_0 : nsquare DA (Fin 0) = Fin 0.
Proof. cbn. f_equal. rewrite Rmult_0_l. apply to_double_0. Qed.
Lemma scale_0 k : @emul R DA (Fin k) (Fin 0) = Fin 0.
Proof. cbn. f_equal. rewrite Rmult_0_r. apply to_double_0. Qed.
Lemma over_0 k : k <> 0 -> @ediv R DA (Fin 0) (Fin k) = Fin 0.
Proof. intros Hk. cbn [ediv]. change (@aeqb R DA k (@a0 R DA)) with (if Req_EM_T k 0 then true else false). destruct (Req_EM_T k 0); [lra|]. f_equal. apply div_0. Qed.
Lemma half_0 root : root 0 = 0 -> npow_half root (Fin 0) = Fin 0.
Proof. intros H. cbn. destruct (Rlt_dec 0 0); [lra|]. now rewrite H. Qed.
Lemma neg_0 : set_negative_to_zero (Fin 0) = Fin 0.
Proof. unfold set_negative_to_zero. cbn. destruct (Rlt_dec 0 0); [lra|reflexivity]. Qed.

Ltac known := repeat match goal with
  | H : lookup ?n ?X = Some _ |- context [check_missing_columns ?X _] => unfold check_missing_columns; cbn [forallb]
  | H : lookup ?n ?X = Some _ |- context [lookup ?n ?X] => rewrite H
  | |- _ => progress (cbn [andb negb raise_if bind])
  | |- context [column ?n ?X] => unfold column
  end.
Section Flat.
  Variables log exp root : R -> R.
  Variable w : nat.
  Hypothesis Hw : (0 < w)%nat.
  Hypothesis Hw' : (Z.of_nat w <= 2 ^ 53)%Z.
  Variable X : frame.
  Lemma kyle_flat cn vn p v : lookup cn X = Some (repeat (Fin p) (length v)) -> lookup vn X = Some v -> Forall positive v ->
    kyle_running DA w cn vn X = Ok (level 0 w (length v)).
  Proof.
    intros Hc Hv F. unfold kyle_running. known. rewrite level_repeat, diff_level, (map_level _ 0 0) by (auto using abs_0). rewrite div_level by auto. rewrite mean_level by auto. do 2 f_equal. lia.
  Qed.
  Lemma log_level p n : 0 < p -> map (nlog log) (level p 0 n) = level (log p) 0 n.
  Proof. intros Hp. apply map_level; [reflexivity|]. cbn. destruct (Rlt_dec 0 p); [reflexivity|lra]. Qed.
  Lemma amihud_flat cn vn p v : 0 < p -> lookup cn X = Some (repeat (Fin p) (length v)) -> lookup vn X = Some v -> Forall positive v ->
    amihud_running DA log w cn vn X = Ok (level 0 w (length v)).
  Proof.
    intros Hp Hc Hv F. unfold amihud_running. known. rewrite level_repeat, log_level, diff_level, (map_level _ 0 0) by (auto using abs_0). rewrite div_level by auto. rewrite mean_level by auto. do 2 f_equal. lia.
  Qed.
  Lemma hasbrouck_flat cn vn p v : (forall a, 0 < a -> 0 < root a) -> 0 < p -> lookup cn X = Some (repeat (Fin p) (length v)) -> lookup vn X = Some v -> Forall positive v ->
    hasbrouck_running DA log root w cn vn X = Ok (level 0 w (length v)).
  Proof.
    intros Hr Hp Hc Hv F. unfold hasbrouck_running. known. rewrite level_repeat, log_level, diff_level, (map_level _ 0 0) by (auto using abs_0). rewrite div_level; [|now rewrite map_length|].
    - rewrite mean_level by auto. do 2 f_equal. lia.
    - apply Forall_forall. intros x Hx. apply in_map_iff in Hx as (y & <- & Hy). rewrite Forall_forall in F. destruct (F y Hy) as (u & -> & Hu). exists (root u). split; [|now apply Hr].
      cbn. destruct (Rlt_dec u 0); [lra|reflexivity].
  Qed.
  Lemma parkinson_flat k hn ln' v : log 1 = 0 -> lookup hn X = Some v -> lookup ln' X = Some v -> Forall positive v ->
    parkinson_running DA log k w hn ln' X = Ok (level 0 (w - 1) (length v)).
  Proof.
    intros Hl Hh Hlo F. unfold parkinson_running. known. rewrite ratios_1 by exact F. rewrite (map_level _ 1 0); [|reflexivity|].
    - rewrite mean_level by auto. reflexivity.
    - rewrite nlog_1 by exact Hl. rewrite square_0. apply scale_0.
  Qed.
  Hypothesis Hlog : log 1 = 0.
  Hypothesis Hroot : root 0 = 0.
  Lemma beta_flat p n : 0 < p -> beta_running DA log (level p 0 n) (level p 0 n) w = level 0 w n.
  Proof.
    intros Hp. unfold beta_running. rewrite (zipw_level _ p p 1); [|reflexivity|now intros [| | |]|now apply ratio_1].
    rewrite (map_level _ 1 0) by (auto using nlog_1). rewrite (map_level _ 0 0) by (auto using square_0). cbn [Nat.max]. rewrite sum_level, mean_level by (auto; lia). f_equal. lia.
  Qed.
  Lemma gamma_flat p n : 0 < p -> gamma_running DA log (level p 0 n) (level p 0 n) = level 0 1 n.
  Proof.
    intros Hp. unfold gamma_running. rewrite (rolling_level 2 agg_max p p), (rolling_level 2 agg_min p p) by (auto using max_level, min_level).
    rewrite (zipw_level _ p p 1); [|reflexivity|now intros [| | |]|now apply ratio_1].
    rewrite (map_level _ 1 0) by (auto using nlog_1). rewrite (map_level _ 0 0) by (auto using square_0). reflexivity.
  Qed.
  Lemma corwin_flat den c hn ln' p n : exp 0 = 1 -> den <> 0 -> 0 < p -> lookup hn X = Some (repeat (Fin p) n) -> lookup ln' X = Some (repeat (Fin p) n) ->
    corwin_schultz_running DA log exp root den c w hn ln' X = Ok (level 0 w n).
  Proof.
    intros He Hd Hp Hh Hlo. unfold corwin_schultz_running. known. rewrite level_repeat, beta_flat, gamma_flat by exact Hp. unfold alpha_running.
    rewrite (map_level _ 0 0); [|reflexivity|rewrite half_0, scale_0 by exact Hroot; now apply over_0].
    rewrite (map_level (fun g => npow_half root _) 0 0); [|reflexivity|rewrite over_0 by exact Hd; now apply half_0].
    rewrite (zipw_level _ 0 0 0) by (auto using esub_nan_l, esub_nan_r, sub_self). rewrite (map_level set_negative_to_zero 0 0) by (reflexivity || apply neg_0).
    rewrite (map_level _ 0 0); [f_equal; f_equal; lia|reflexivity|]. cbn [nexp]. rewrite He. change (@a1 R DA) with 1. rewrite sub_self, scale_0. cbn [eadd aadd Arith_double].
    apply over_0. assert (1 <= to_double (1 + 1)) by (apply to_double_ge_double; [apply is_double_1|lra]). lra.
  Qed.
  Lemma beckers_flat c d e hn ln' p n : d <> 0 -> e <> 0 -> 0 < p -> lookup hn X = Some (repeat (Fin p) n) -> lookup ln' X = Some (repeat (Fin p) n) ->
    beckers_parkinson_running DA log root c d e w hn ln' X = Ok (level 0 w n).
  Proof.
    intros Hd He Hp Hh Hlo. unfold beckers_parkinson_running. known. rewrite level_repeat, beta_flat, gamma_flat by exact Hp.
    rewrite (map_level _ 0 0); [|reflexivity|rewrite half_0, scale_0 by exact Hroot; now apply over_0].
    rewrite (map_level (fun g => npow_half root _) 0 0); [|reflexivity|rewrite over_0 by exact He; now apply half_0].
    rewrite (zipw_level _ 0 0 0); [|reflexivity|now intros [| | |]|cbn; f_equal; rewrite Rplus_0_l; apply to_double_0]. rewrite (map_level set_negative_to_zero 0 0) by (reflexivity || apply neg_0).
    f_equal. f_equal. lia.
  Qed.
End Flat.
