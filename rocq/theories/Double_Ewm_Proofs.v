(** The running exponentially weighted moments in exact arithmetic and in doubles. *)
From Coq Require Import Reals ZArith QArith Qreals Lra Lia List String.
From Flocq.Core Require Raux Zaux.
From Verif Require Import Prelude PreludeFacts Num Series DailyVol_Model Feat_Model Ewm_Model Ewm_Proofs
  Double_Model Double_Spec Double_Proofs Double_Proofs2 Rounding_Model Rounding_Proofs Rounding_Arith_Model Rounding_Arith_Proofs
  Double_Vpin_Model Double_Vpin_Proofs Double_Vpin_Proofs3 Double_Cross_Proofs2 Double_Z_Model Double_Z_Proofs Double_Ewm_Model.
Import ListNotations.
Local Open Scope R_scope.
Local Notation length := List.length.

(** ** Exact arithmetic *)

Lemma factor_exact span : @wt_factor R Arith_R span = old_wt_factor span.
Proof. unfold wt_factor, old_wt_factor, asub, adiv. cbn [aadd aopp amul ainv a1 Arith_R]. unfold Rminus, Rdiv. replace (1 + 1) with 2 by lra. reflexivity. Qed.
Lemma mean_exact_step wt m c : @next_mean R Arith_R wt m c = if Req_EM_T m c then m else (wt * m + 1 * c) / (wt + 1).
Proof. unfold next_mean. cbn. now destruct (Req_EM_T m c). Qed.
Lemma ewma_exact span l : @ewma_double R Arith_R span l = ewma_run span l.
Proof.
  unfold ewma_double, ewma_run. rewrite factor_exact. generalize (@None (R * R)). induction l as [|x l IH]; intros s; [reflexivity|]. cbn [scan_g scan].
  replace (@ewma_step R Arith_R (old_wt_factor span) s x) with (ewma_update (old_wt_factor span) s x); [now rewrite IH|].
  destruct s as [[m wt]|], x as [c| | |]; try reflexivity. cbn [ewma_update ewma_step]. rewrite mean_exact_step. reflexivity.
Qed.
Definition as_cov (s : ecov R) : cov_state := {| c_mean := e_mean s; c_cov := e_cov s; c_sum_wt := e_sum_wt s; c_sum_wt2 := e_sum_wt2 s; c_old_wt := e_old_wt s |}.
Lemma ewmstd_exact span l : @ewmstd_running R Arith_R sqrt span l = ewmstd_run span l.
Proof.
  unfold ewmstd_running, ewmvar_run, ewmstd_run. rewrite factor_exact. change (@None cov_state) with (option_map as_cov None). generalize (@None (ecov R)).
  induction l as [|x l IH]; intros s; [reflexivity|]. cbn [scan_g scan map].
  assert (E : ewmcov_update (old_wt_factor span) (option_map as_cov s) x = option_map as_cov (@ecov_step R Arith_R (old_wt_factor span) s x)).
  { destruct s as [s|], x as [c| | |]; try reflexivity. cbn [option_map ewmcov_update ecov_step as_cov c_mean c_cov c_sum_wt c_sum_wt2 c_old_wt].
    rewrite mean_exact_step. unfold as_cov. cbn [e_mean e_cov e_sum_wt e_sum_wt2 e_old_wt]. cbn [aadd aopp amul ainv a1 a0 Arith_R adiv asub]. unfold Rminus, Rdiv. do 2 f_equal. ring. }
  rewrite E, IH. f_equal. generalize (@ecov_step R Arith_R (old_wt_factor span) s x) as t. intros [t|]; [|reflexivity].
  unfold ecov_out, ewmcov_output. cbn [option_map as_cov c_sum_wt c_sum_wt2 c_cov]. cbn [aadd aopp amul ainv a1 a0 altb Arith_R adiv asub]. unfold Rminus.
  destruct (Rlt_dec 0 _); [|reflexivity]. cbn [zroot zsqrt altb a0 Arith_R]. unfold Rdiv. now destruct (Rlt_dec _ 0).
Qed.

(** ** Doubles *)

Lemma mul_nonneg x y : 0 <= x -> 0 <= y -> 0 <= @amul R DA x y.
Proof. intros. apply to_double_nonneg. now apply Rmult_le_pos. Qed.
Lemma square_nonneg x : 0 <= @amul R DA x x.
Proof. apply to_double_nonneg. apply Rle_0_sqr. Qed.
Lemma add_nonneg x y : 0 <= x -> 0 <= y -> 0 <= @aadd R DA x y.
Proof. intros. apply to_double_nonneg. lra. Qed.
Lemma add_one x : 0 <= x -> 1 <= @aadd R DA x 1.
Proof. intros. apply to_double_ge_double; [apply is_double_1|lra]. Qed.
Lemma div_nonneg x y : 0 <= x -> 0 < y -> 0 <= @adiv R DA x y.
Proof. intros. apply to_double_nonneg. apply Rmult_le_pos; auto. left. now apply Rinv_0_lt_compat. Qed.

(** Spans of at least 2: the factor is between a quarter and 1. *)
Lemma pow_1 : powerRZ 2 (-1) = / 2. Proof. change (powerRZ 2 (-1)) with (/ (2 * 1)). field. Qed.
Lemma pow_2 : powerRZ 2 (-2) = / 4. Proof. change (powerRZ 2 (-2)) with (/ (2 * (2 * 1))). field. Qed.
Lemma pow_3 : powerRZ 2 (-3) = / 8. Proof. change (powerRZ 2 (-3)) with (/ (2 * (2 * (2 * 1)))). field. Qed.
Lemma double_half : is_double (1 / 2). Proof. exists 1%Z, (-1)%Z. split; [rewrite ?pow_1, ?pow_2, ?pow_3; lra|lia]. Qed.
Lemma double_quarter : is_double (1 / 4). Proof. exists 1%Z, (-2)%Z. split; [rewrite ?pow_1, ?pow_2, ?pow_3; lra|lia]. Qed.
Lemma double_3half : is_double (3 / 2). Proof. exists 3%Z, (-1)%Z. split; [rewrite ?pow_1, ?pow_2, ?pow_3; lra|lia]. Qed.
Lemma double_3quarter : is_double (3 / 4). Proof. exists 3%Z, (-2)%Z. split; [rewrite ?pow_1, ?pow_2, ?pow_3; lra|lia]. Qed.
Lemma two : @aadd R DA 1 1 = 2.
Proof. cbn [aadd Arith_double]. replace (1 + 1) with (IZR 2) by lra. apply to_double_id, is_double_IZR. lia. Qed.
Lemma factor_bounds span : (1 <= span -> 0 <= @wt_factor R DA span <= 1) /\ (2 <= span -> 1 / 4 <= @wt_factor R DA span).
Proof.
  unfold wt_factor. change (@a1 R DA) with 1. rewrite two. unfold adiv, asub. cbn [aadd aopp amul ainv Arith_double].
  split; intros H.
  - assert (A : 0 <= to_double (span + - 1)) by (apply to_double_nonneg; lra).
    assert (B : 0 <= to_double (to_double (span + - 1) * / 2)) by (apply to_double_nonneg; lra).
    assert (C : 1 <= to_double (1 + to_double (to_double (span + - 1) * / 2))) by (apply to_double_ge_double; [apply is_double_1|lra]).
    set (d := to_double (1 + _)) in *. assert (D : 0 < / d <= 1).
    { split; [apply Rinv_0_lt_compat; lra|]. rewrite <- Rinv_1. apply Rinv_le_contravar; lra. }
    assert (E : 0 <= to_double (1 * / d) <= 1) by (split; [apply to_double_nonneg; lra|apply to_double_le_double; [apply is_double_1|lra]]).
    split; [apply to_double_nonneg; lra|apply to_double_le_double; [apply is_double_1|lra]].
  - assert (A : 1 <= to_double (span + - 1)) by (apply to_double_ge_double; [apply is_double_1|lra]).
    assert (B : 1 / 2 <= to_double (to_double (span + - 1) * / 2)) by (apply to_double_ge_double; [apply double_half|lra]).
    assert (C : 3 / 2 <= to_double (1 + to_double (to_double (span + - 1) * / 2))) by (apply to_double_ge_double; [apply double_3half|lra]).
    set (d := to_double (1 + _)) in *. assert (D : / d <= 3 / 4).
    { replace (3 / 4) with (/ (4 / 3)) by field. apply Rinv_le_contravar; lra. }
    assert (E : to_double (1 * / d) <= 3 / 4) by (apply to_double_le_double; [apply double_3quarter|lra]).
    apply to_double_ge_double; [apply double_quarter|lra].
Qed.

Section Factor.
  Variable f : R.
  Hypothesis Hf : 0 <= f <= 1.
  (** What holds after any number of rows. *)
  Definition sound (s : option (ecov R)) : Prop :=
    match s with None => True | Some s => 0 <= e_cov s /\ 0 <= e_sum_wt s /\ 0 <= e_sum_wt2 s /\ 0 <= e_old_wt s end.
  Lemma sound_step s x : sound s -> sound (@ecov_step R DA f s x).
  Proof.
    intros H. destruct s as [s|], x as [c| | |]; cbn [ecov_step sound e_cov e_sum_wt e_sum_wt2 e_old_wt] in *; auto; change (@a1 R DA) with 1; change (@a0 R DA) with 0; try (repeat split; lra);
      destruct H as (A & B & C & D); pose proof (mul_nonneg f f (proj1 Hf) (proj1 Hf)) as F2; pose proof (mul_nonneg _ f D (proj1 Hf)) as W; pose proof (mul_nonneg _ f B (proj1 Hf)) as S1;
      pose proof (mul_nonneg _ _ C F2) as S2; try (repeat split; assumption).
    repeat split.
    - apply div_nonneg; [|pose proof (add_one _ W); lra]. apply add_nonneg; [apply mul_nonneg; [exact W|]; apply add_nonneg; [exact A|apply square_nonneg]|].
      apply mul_nonneg; [lra|apply square_nonneg].
    - apply add_nonneg; [exact S1|lra].
    - apply add_nonneg; [exact S2|apply square_nonneg].
    - apply add_nonneg; [exact W|lra].
  Qed.
  Lemma sound_out s : sound s -> @ecov_out R DA s = NaN \/ exists v, @ecov_out R DA s = Fin v /\ 0 <= v.
  Proof.
    destruct s as [s|]; [|now left]. intros (A & B & C & D). unfold ecov_out. cbn [altb a0 Arith_double]. destruct (Rlt_dec 0 _) as [P|P]; [|now left]. right.
    eexists. split; [reflexivity|]. apply mul_nonneg; [|exact A]. apply div_nonneg; [apply square_nonneg|exact P].
  Qed.
  Lemma sound_scan l : forall s, sound s -> Forall (fun x => x = NaN \/ exists v, x = Fin v /\ 0 <= v) (scan_g (@ecov_step R DA f) (@ecov_out R DA) s l).
  Proof. induction l as [|x l IH]; intros s H; cbn [scan_g]; constructor; [apply sound_out|apply IH]; now apply sound_step. Qed.

  (** A flat series. *)
  Variable p : R.
  Definition level (s : option (ecov R)) : Prop := match s with None => True | Some s => e_mean s = p /\ e_cov s = 0 end.
  Lemma next_level wt : @next_mean R DA wt p p = p.
  Proof. unfold next_mean. cbn [aeqb Arith_double]. destruct (Req_EM_T p p); [reflexivity|lra]. Qed.
  Lemma level_step s x : missing_or p x -> level s -> level (@ecov_step R DA f s x).
  Proof.
    intros [-> | ->] H; destruct s as [s|]; cbn [ecov_step level e_mean e_cov] in *; auto. destruct H as [M C]. rewrite M, C, next_level. split; [reflexivity|].
    rewrite sub_same, mul_0, add_00. replace (@amul R DA (@amul R DA (e_old_wt s) f) 0) with 0 by (cbn [amul Arith_double]; now rewrite Rmult_0_r, to_double_0).
    replace (@amul R DA (@a1 R DA) 0) with 0 by (cbn [amul Arith_double]; now rewrite Rmult_0_r, to_double_0). now rewrite add_00, div_0.
  Qed.
  Lemma level_out s : level s -> missing_or 0 (@ecov_out R DA s).
  Proof.
    destruct s as [s|]; [|now left]. intros [_ C]. unfold ecov_out. destruct (altb _ _); [|now left]. right. rewrite C. cbn [amul Arith_double]. now rewrite Rmult_0_r, to_double_0.
  Qed.
  Lemma level_scan l : Forall (missing_or p) l -> forall s, level s -> Forall (missing_or 0) (scan_g (@ecov_step R DA f) (@ecov_out R DA) s l).
  Proof. intros F. induction F as [|x l Hx F IH]; intros s H; cbn [scan_g]; constructor; [apply level_out|apply IH]; now apply level_step. Qed.
  Lemma ewma_level l : Forall (missing_or p) l -> forall s, (forall m wt, s = Some (m, wt) -> m = p) -> Forall (missing_or p) (scan_g (@ewma_step R DA f) (@ewma_out R) s l).
  Proof.
    intros F. induction F as [|x l Hx F IH]; intros s H; cbn [scan_g]; constructor.
    - destruct s as [[m wt]|], Hx as [-> | ->]; cbn; try (now left); try (now right); right; rewrite (H m wt eq_refl); [reflexivity|now rewrite next_level].
    - apply IH. intros m wt E. destruct s as [[m0 wt0]|], Hx as [-> | ->]; cbn in E; try discriminate; injection E as <- <-; try reflexivity; rewrite (H m0 wt0 eq_refl); [reflexivity|apply next_level].
  Qed.
End Factor.

(** Without missing values and with a span of at least 2, every row but the first has a value. *)
Section Defined.
  Variable f : R.
  Hypothesis Hf : 1 / 4 <= f <= 1.
  Hypothesis Df : is_double f.
  Definition started (s : ecov R) : Prop := is_double (e_sum_wt s) /\ 1 <= e_sum_wt s /\ 0 <= e_sum_wt2 s <= e_sum_wt s.
  Lemma started_step s c : started s -> exists t, @ecov_step R DA f (Some s) (Fin c) = Some t /\ started t /\ 5 / 4 <= e_sum_wt t.
  Proof.
    intros (A & B & C). eexists. split; [reflexivity|]. unfold started. cbn [e_sum_wt e_sum_wt2 amul aadd a1 Arith_double].
    assert (G : f <= to_double (e_sum_wt s * f)) by (apply to_double_ge_double; [exact Df|nra]).
    assert (D54 : is_double (5 / 4)) by (exists 5%Z, (-2)%Z; split; [rewrite ?pow_1, ?pow_2, ?pow_3; lra|lia]).
    assert (S1 : 5 / 4 <= to_double (to_double (e_sum_wt s * f) + 1)) by (apply to_double_ge_double; [exact D54|lra]).
    split; [|exact S1]. split; [apply to_double_is|]. split; [lra|]. split.
    - apply to_double_nonneg. assert (0 <= to_double (e_sum_wt2 s * to_double (f * f))) by (apply to_double_nonneg, Rmult_le_pos; [lra|apply to_double_nonneg; nra]).
      assert (0 <= to_double (1 * 1)) by (apply to_double_nonneg; lra). lra.
    - replace (to_double (1 * 1)) with 1 by (rewrite Rmult_1_r; symmetry; apply to_double_id, is_double_1). apply to_double_le. apply Rplus_le_compat_r. apply to_double_le.
      assert (F2 : 0 <= to_double (f * f) <= f) by (split; [apply to_double_nonneg; nra|apply to_double_le_double; [exact Df|nra]]). nra.
  Qed.
  Lemma started_out s : started s -> 5 / 4 <= e_sum_wt s -> exists v, @ecov_out R DA (Some s) = Fin v.
  Proof.
    intros (A & B & C) H. unfold ecov_out, asub. cbn [altb a0 aadd aopp amul Arith_double]. destruct (Rlt_dec 0 _) as [P|P]; [eexists; reflexivity|]. exfalso. apply P.
    set (s1 := e_sum_wt s) in *. set (s2 := e_sum_wt2 s) in *.
    assert (N : s1 + 1 / 8 <= to_double (s1 * s1)).
    { pose proof (error_any (s1 * s1)) as E. rewrite (Rabs_pos_eq (s1 * s1)) in E by nra. apply Raux.Rabs_le_inv in E. pose proof eps64_pos as [E0 E1].
      assert (T : tiny <= / 16). { destruct tiny_pos as [_ T]. eapply Rle_trans; [exact T|]. change (/ 16) with (Raux.bpow Zaux.radix2 (-4)). apply Raux.bpow_le. lia. }
      nra. }
    apply Rlt_le_trans with (1 / 8); [lra|]. apply to_double_ge_double; [exists 1%Z, (-3)%Z; split; [rewrite ?pow_1, ?pow_2, ?pow_3; lra|lia]|lra].
  Qed.
  Lemma defined_scan l : (forall x, In x l -> exists c, x = Fin c) -> forall s, started s -> Forall (fun x => exists v, x = Fin v) (scan_g (@ecov_step R DA f) (@ecov_out R DA) (Some s) l).
  Proof.
    induction l as [|x l IH]; intros Hl s H; cbn [scan_g]; [constructor|]. destruct (Hl x (or_introl eq_refl)) as (c & ->). destruct (started_step s c H) as (t & E & T & B).
    rewrite E. constructor; [now apply started_out|]. apply IH; [intros y Hy; apply Hl; now right|exact T].
  Qed.
End Defined.
