(** The microstructural features in exact arithmetic, and their signs in doubles. *)
From Coq Require Import Reals ZArith Lra Lia List String.
From Verif Require Import Prelude PreludeFacts Num Series DailyVol_Model Feat_Model Feat_Spec Feat_Proofs Feat_Proofs3 Feat_Proofs6 Roll_Model Roll_Proofs Roll_Proofs2
  Double_Model Double_Spec Double_Proofs Double_Proofs2 Rounding_Arith_Proofs Double_Vpin_Model Double_Vpin_Proofs Double_Cross_Model Double_Cross_Proofs2 Double_Ewm_Proofs Double_Micro_Model.
Import ListNotations.
Local Open Scope R_scope.
Local Notation length := List.length.

(** ** Exact arithmetic *)

Lemma zipw_diag {A B C D} (f : B -> C -> D) (g : A -> B) (h : A -> C) l : zipw f (map g l) (map h l) = map (fun x => f (g x) (h x)) l.
Proof. unfold zipw. induction l; cbn; [reflexivity|]. now rewrite IHl. Qed.
Lemma cov_exact w s t : (0 < w)%nat -> rolling_cov_running Arith_R w s t = rolling_cov w s t.
Proof.
  intros Hw. rewrite <- roll_cov_eq by exact Hw. unfold rolling_cov_running, roll_cov. cbv zeta. rewrite !roll_mean_eq, !mean_real by exact Hw.
  f_equal. unfold roll_count. rewrite !map_map, zipw_diag.
  match goal with |- map _ (seq 0 ?a) = map _ (seq 0 ?b) => replace b with a by (unfold zipw; repeat (rewrite map_length || rewrite combine_length); lia) end.
  apply map_ext. intros i. unfold count_at, start. rewrite count_finite, anat_real. reflexivity.
Qed.
Lemma nlog_exact x : nlog ln x = elog x. Proof. reflexivity. Qed.
Lemma nsqrt_exact x : nsqrt sqrt x = esqrt x. Proof. reflexivity. Qed.
Lemma two_exact : @anat R Arith_R 2 = 2. Proof. rewrite anat_real. reflexivity. Qed.
Section Exact.
  Variable w : nat.
  Hypothesis Hw : (0 < w)%nat.
  Lemma roll_exact cn X : roll_measure_running Arith_R sqrt w cn X = roll_measure w cn X.
  Proof.
    unfold roll_measure_running, roll_measure. destruct (check_missing_columns _ _); [|reflexivity]. cbn [bind]. destruct (column cn X); [|reflexivity]. cbn [bind].
    rewrite cov_exact by exact Hw. rewrite two_exact. reflexivity.
  Qed.
  Lemma parkinson_exact hn ln' X : parkinson_running Arith_R ln (1 / (4 * ln 2)) w hn ln' X = parkinson w hn ln' X.
  Proof.
    unfold parkinson_running, parkinson. destruct (check_missing_columns _ _); [|reflexivity]. cbn [bind]. destruct (column hn X); [|reflexivity]. cbn [bind]. destruct (column ln' X); [|reflexivity]. cbn [bind].
    rewrite mean_real by exact Hw. reflexivity.
  Qed.
  Lemma beta_exact h l : beta_running Arith_R ln h l w = get_beta h l w.
  Proof. unfold beta_running, get_beta. rewrite mean_real, kahan_real by lia. reflexivity. Qed.
  Lemma corwin_exact hn ln' X : corwin_schultz_running Arith_R ln exp sqrt (3 - 2 * sqrt 2) (sqrt 2 - 1) w hn ln' X = corwin_schultz w hn ln' X.
  Proof.
    unfold corwin_schultz_running, corwin_schultz. destruct (check_missing_columns _ _); [|reflexivity]. cbn [bind]. destruct (column hn X); [|reflexivity]. cbn [bind]. destruct (column ln' X); [|reflexivity]. cbn [bind].
    rewrite beta_exact, two_exact. reflexivity.
  Qed.
  Lemma beckers_exact hn ln' X : beckers_parkinson_running Arith_R ln sqrt (1 / sqrt 2 - 1) (sqrt (8 / PI) * (3 - 2 * sqrt 2)) (sqrt (8 / PI) * sqrt (8 / PI) * (3 - 2 * sqrt 2)) w hn ln' X = beckers_parkinson w hn ln' X.
  Proof.
    unfold beckers_parkinson_running, beckers_parkinson. destruct (check_missing_columns _ _); [|reflexivity]. cbn [bind]. destruct (column hn X); [|reflexivity]. cbn [bind]. destruct (column ln' X); [|reflexivity]. cbn [bind].
    rewrite beta_exact. reflexivity.
  Qed.
  Lemma kyle_exact cn vn X : kyle_running Arith_R w cn vn X = kyle_lambda w cn vn X.
  Proof.
    unfold kyle_running, kyle_lambda. destruct (check_missing_columns _ _); [|reflexivity]. cbn [bind]. destruct (column cn X); [|reflexivity]. cbn [bind]. destruct (column vn X); [|reflexivity]. cbn [bind].
    now rewrite mean_real by exact Hw.
  Qed.
  Lemma amihud_exact cn vn X : amihud_running Arith_R ln w cn vn X = amihud_lambda w cn vn X.
  Proof.
    unfold amihud_running, amihud_lambda. destruct (check_missing_columns _ _); [|reflexivity]. cbn [bind]. destruct (column cn X); [|reflexivity]. cbn [bind]. destruct (column vn X); [|reflexivity]. cbn [bind].
    rewrite mean_real by exact Hw. reflexivity.
  Qed.
  Lemma hasbrouck_exact cn vn X : hasbrouck_running Arith_R ln sqrt w cn vn X = hasbrouck_lambda w cn vn X.
  Proof.
    unfold hasbrouck_running, hasbrouck_lambda. destruct (check_missing_columns _ _); [|reflexivity]. cbn [bind]. destruct (column cn X); [|reflexivity]. cbn [bind]. destruct (column vn X); [|reflexivity]. cbn [bind].
    rewrite mean_real by exact Hw. reflexivity.
  Qed.
End Exact.

(** ** Signs in doubles *)

(** The mean of values that are not negative is not negative, however the sum was rounded: neg_ct is 0. *)
Lemma nn_kahan_mean w l : (0 < w)%nat -> Forall not_negative l -> Forall not_negative (@kahan_mean R DA w l).
Proof.
  intros Hw F. unfold kahan_mean, roll. apply Forall_forall.
  assert (G : forall rows (s : kahan R * nat), snd s = 0%nat -> forall x, In x (roll_loop (if_finite (@add_mean R DA)) (if_finite (@remove_mean R DA)) (@calc_mean R DA w) w l s rows) -> not_negative x).
  { assert (P : forall (f : kahan R * nat -> R -> kahan R * nat) m, (forall s v, 0 <= v -> snd (f s v) = snd s) -> Forall not_negative m -> forall s, snd (fold_left (if_finite f) m s) = snd s).
    { intros f m Hf Fm. induction Fm as [|x m [-> |[-> |(v & -> & Hv)]] Fm IH]; intros s; cbn [fold_left if_finite]; auto. now rewrite IH, Hf. }
    induction rows as [|i rows IH]; intros s Hs x Hx; [destruct Hx|]. cbn [roll_loop] in Hx.
    set (t := fold_left (if_finite (@add_mean R DA)) (slice i (S i) l) _) in Hx.
    assert (Ht : snd t = 0%nat).
    { unfold t. rewrite P; [|intros s' v Hv; unfold add_mean; cbn [snd altb a0 Arith_double]; destruct (Rlt_dec v 0); [lra|reflexivity]|now apply nn_slice].
      rewrite P; [exact Hs|intros s' v Hv; unfold remove_mean; cbn [snd altb a0 Arith_double]; destruct (Rlt_dec v 0); [lra|reflexivity]|]. destruct i; [constructor|now apply nn_slice]. }
    destruct Hx as [<-|Hx]; [|now apply (IH t Ht)]. unfold calc_mean. rewrite Ht. destruct (_ && _)%bool eqn:E; [|now left]. apply andb_prop in E as [_ E]. apply Nat.ltb_lt in E.
    cbn [Nat.eqb andb altb a0 Arith_double]. destruct (Rlt_dec _ 0) as [L|L]; cbn [negb].
    - right. right. exists 0. split; [reflexivity|lra].
    - destruct (k_nobs (fst t)) as [|k] eqn:K; [lia|]. cbn [andb]. right. right. eexists. split; [reflexivity|lra]. }
  apply G. reflexivity.
Qed.
Lemma nnd_abs x : not_negative (@eabs R DA x).
Proof. destruct x as [a| | |]; cbn; [|now right; left|now right; left|now left]. right. right. eexists. split; [reflexivity|]. destruct (Rlt_dec a 0); lra. Qed.
Lemma nnd_div a b : not_negative a -> not_negative b -> not_negative (@ediv R DA a b).
Proof.
  intros [->|[->|(u & -> & Hu)]] [->|[->|(v & -> & Hv)]]; cbn; try (now left); try (now right; left).
  - unfold asign. cbn. destruct (Rlt_dec v 0); [lra|]. destruct (Rlt_dec 0 v); now right; left.
  - right. right. exists 0. split; [reflexivity|lra].
  - destruct (Req_EM_T v 0).
    + unfold asign. cbn. destruct (Rlt_dec u 0); [lra|]. destruct (Rlt_dec 0 u); cbn; [now right; left|now left].
    + right. right. eexists. split; [reflexivity|]. apply div_nonneg; lra.
Qed.
Lemma nnd_square x : not_negative (nsquare DA x).
Proof.
  destruct x as [a| | |]; cbn; [|now right; left|now right; left|now left]. right. right. eexists. split; [reflexivity|]. apply square_nonneg.
Qed.
Lemma nnd_scale k a : 0 < k -> not_negative a -> not_negative (@emul R DA (Fin k) a).
Proof.
  intros Hk [->|[->|(u & -> & Hu)]]; cbn; [now left| |right; right; eexists; split; [reflexivity|apply mul_nonneg; lra]].
  unfold asign. cbn. destruct (Rlt_dec k 0); [lra|]. destruct (Rlt_dec 0 k); cbn; [now right; left|lra].
Qed.
Lemma nnd_sqrt root x : (forall a, 0 <= a -> 0 <= root a) -> not_negative (nsqrt root x).
Proof.
  intros Hr. destruct x as [a| | |]; cbn; [|now right; left|now left|now left]. destruct (Rlt_dec a 0) as [L|L]; [now left|]. right. right. eexists. split; [reflexivity|]. apply Hr. lra.
Qed.
Lemma two_double : @anat R DA 2 = 2.
Proof. rewrite Double_Cross_Proofs.anat_double by lia. reflexivity. Qed.
Section Signs.
  Variables log exp root : R -> R.
  Hypothesis Hroot : forall a, 0 <= a -> 0 <= root a.
  Variable w : nat.
  Hypothesis Hw : (0 < w)%nat.
  Lemma roll_sign cn X out : roll_measure_running DA root w cn X = Ok out -> Forall not_negative out.
  Proof. intros H. unfold roll_measure_running in H. open H. injection H as <-. apply nn_map. intros x _. apply nnd_scale; [change (0 < @anat R DA 2); rewrite two_double; lra|now apply nnd_sqrt]. Qed.
  Lemma parkinson_sign k hn ln' X out : 0 < k -> parkinson_running DA log k w hn ln' X = Ok out -> Forall not_negative out.
  Proof. intros Hk H. unfold parkinson_running in H. open H. injection H as <-. apply nn_kahan_mean; [exact Hw|]. apply nn_map. intros x _. apply nnd_scale; [exact Hk|apply nnd_square]. Qed.
  Lemma beckers_sign c d e hn ln' X out : beckers_parkinson_running DA log root c d e w hn ln' X = Ok out -> Forall not_negative out.
  Proof. intros H. unfold beckers_parkinson_running in H. open H. injection H as <-. apply nn_map. intros. apply nn_zeroed. Qed.
  Lemma kyle_sign cn vn X out : volumes_not_negative X vn -> kyle_running DA w cn vn X = Ok out -> Forall not_negative out.
  Proof.
    intros Hv H. unfold kyle_running in H. open H. injection H as <-. apply nn_kahan_mean; [exact Hw|]. apply nn_zipw. intros a b Ha Hb.
    pose proof (Hv _ Heqo0) as Hc. rewrite Forall_forall in Hc. apply in_map_iff in Ha as (x & <- & _). apply nnd_div; auto. apply nnd_abs.
  Qed.
  Lemma amihud_sign cn vn X out : volumes_not_negative X vn -> amihud_running DA log w cn vn X = Ok out -> Forall not_negative out.
  Proof.
    intros Hv H. unfold amihud_running in H. open H. injection H as <-. apply nn_kahan_mean; [exact Hw|]. apply nn_zipw. intros a b Ha Hb.
    pose proof (Hv _ Heqo0) as Hc. rewrite Forall_forall in Hc. apply in_map_iff in Ha as (x & <- & _). apply nnd_div; auto. apply nnd_abs.
  Qed.
  Lemma hasbrouck_sign cn vn X out : hasbrouck_running DA log root w cn vn X = Ok out -> Forall not_negative out.
  Proof.
    intros H. unfold hasbrouck_running in H. open H. injection H as <-. apply nn_kahan_mean; [exact Hw|]. apply nn_zipw. intros a b Ha Hb.
    apply in_map_iff in Ha as (x & <- & _). apply in_map_iff in Hb as (y & <- & _). apply nnd_div; [apply nnd_abs|now apply nnd_sqrt].
  Qed.
End Signs.
(** The spread is at most 2. *)
Section Spread.
  Variables log exp root : R -> R.
  Hypothesis Hexp : forall a, 0 <= a -> 1 <= exp a.
  Lemma spread_range a : not_negative a -> let e := nexp exp a in
    let x := @ediv R DA (@emul R DA (Fin (@anat R DA 2)) (@esub R DA e (Fin (@a1 R DA)))) (@eadd R DA (Fin (@a1 R DA)) e) in
    x = NaN \/ exists v, x = Fin v /\ 0 <= v <= 2.
  Proof.
    intros H. cbv zeta. rewrite two_double. destruct H as [-> |[-> |(v & -> & Hv)]]; [now left| |].
    - left. cbn. unfold asign. cbn. destruct (Rlt_dec 2 0); [lra|]. destruct (Rlt_dec 0 2); [reflexivity|lra].
    - right. pose proof (Hexp v Hv) as He. cbn [nexp]. set (e := exp v) in *. cbn [esub eadd eopp emul ediv aopp aadd amul a1 Arith_double].
      assert (D : 0 <= to_double (e + - (1))) by (apply to_double_nonneg; lra). assert (L : to_double (e + - (1)) <= to_double (1 + e)) by (apply to_double_le; lra).
      assert (P : 1 <= to_double (1 + e)) by (apply to_double_ge_double; [apply is_double_1|lra]).
      set (n := to_double (e + - (1))) in *. set (d := to_double (1 + e)) in *. change (@aeqb R DA d (@a0 R DA)) with (if Req_EM_T d 0 then true else false). destruct (Req_EM_T d 0) as [Z|_]; [lra|].
      eexists. split; [reflexivity|]. unfold adiv. cbn [amul ainv Arith_double].
      assert (N : to_double (2 * n) <= 2 * d).
      { assert (DD : is_double d) by (unfold d; apply to_double_is). assert (D2 : is_double (2 * d)).
        { destruct DD as (m & ex & E & M & X). exists m, (ex + 1)%Z. split; [|split; [exact M|lia]]. rewrite E, powerRZ_add by lra. change (powerRZ 2 1) with (2 * 1). ring. }
        apply to_double_le_double; [exact D2|lra]. }
      assert (N0 : 0 <= to_double (2 * n)) by (apply to_double_nonneg; lra). set (m := to_double (2 * n)) in *.
      assert (I : 0 < / d) by (apply Rinv_0_lt_compat; lra). split.
      + apply to_double_nonneg. apply Rmult_le_pos; lra.
      + apply to_double_le_double; [replace 2 with (IZR 2) by reflexivity; apply is_double_IZR; lia|]. apply Rmult_le_reg_r with d; [lra|]. rewrite Rmult_assoc, Rinv_l by lra. lra.
  Qed.
  Lemma corwin_sign w den c hn ln' X out : corwin_schultz_running DA log exp root den c w hn ln' X = Ok out -> Forall (fun x => x = NaN \/ exists v, x = Fin v /\ 0 <= v <= 2) out.
  Proof.
    intros H. unfold corwin_schultz_running in H. open H. injection H as <-. apply Forall_forall. intros x Hx. apply in_map_iff in Hx as (a & <- & Ha). apply spread_range.
    unfold alpha_running in Ha. apply in_map_iff in Ha as (y & <- & _). apply nn_zeroed.
  Qed.
End Spread.
