(** The rolling z-score in exact arithmetic and in a flat market. *)
From Coq Require Import Reals ZArith QArith Qreals Lra Lia List String.
From Verif Require Import Prelude PreludeFacts Num Series DailyVol_Model Feat_Model Feat_Proofs Feat_Proofs3 Roll_Model Roll_Proofs
  Double_Model Double_Spec Double_Proofs Double_Proofs2 Rounding_Model Rounding_Proofs Rounding_Arith_Model Rounding_Arith_Proofs
  Double_Vpin_Model Double_Vpin_Spec Double_Vpin_Proofs Double_Vpin_Proofs2 Double_Vpin_Proofs3 Double_Cross_Model Double_Cross_Proofs Double_Cross_Proofs2 Double_Z_Model.
Import ListNotations.
Local Open Scope R_scope.
Local Notation length := List.length.

(** ** Exact arithmetic *)

Definition plain (s : welford R) : var_state := {| v_nobs := w_nobs s; v_mean := w_mean s; v_ssqdm := w_ssqdm s |}.
Lemma plain_add s x : w_add s = 0 -> plain (@add_var R Arith_R s x) = Roll_Model.add_var (plain s) x /\ w_add (@add_var R Arith_R s x) = 0 /\ w_remove (@add_var R Arith_R s x) = w_remove s.
Proof.
  intros E. unfold add_var, Roll_Model.add_var, plain, asub, adiv. cbn [w_nobs w_mean w_ssqdm w_add w_remove v_nobs v_mean v_ssqdm aadd aopp amul ainv Arith_R].
  rewrite E, anat_real. unfold Rdiv. split; [|split; [ring|reflexivity]]. replace (x + - 0 + - w_mean s) with (x - w_mean s) by ring. reflexivity.
Qed.
Lemma plain_remove s x : w_remove s = 0 -> plain (@remove_var R Arith_R s x) = Roll_Model.remove_var (plain s) x /\ w_add (@remove_var R Arith_R s x) = w_add s /\ w_remove (@remove_var R Arith_R s x) = 0.
Proof.
  intros E. unfold remove_var, Roll_Model.remove_var, plain. cbn [v_nobs v_mean v_ssqdm]. destruct (Nat.pred (w_nobs s)) as [|n].
  - cbn. auto.
  - unfold asub, adiv. cbn [w_nobs w_mean w_ssqdm w_add w_remove v_nobs v_mean v_ssqdm aadd aopp amul ainv Arith_R]. rewrite E, anat_real.
    unfold Rdiv. split; [|split; [reflexivity|ring]]. replace (x + - 0 + - w_mean s) with (x - w_mean s) by ring. reflexivity.
Qed.
Lemma plain_calc w s : @calc_var R Arith_R w s = Roll_Model.calc_var w (plain s).
Proof.
  unfold calc_var, Roll_Model.calc_var, plain. cbn [v_nobs v_ssqdm]. destruct (_ && _)%bool eqn:E; [|reflexivity]. apply andb_prop in E as [_ E]. apply Nat.ltb_lt in E.
  unfold adiv. cbn [amul ainv altb a0 Arith_R]. rewrite anat_real, minus_INR by lia. change (INR 1) with 1. unfold Rdiv. now destruct (Rlt_dec _ _).
Qed.
Lemma var_loop w l : forall rows s, w_add s = 0 -> w_remove s = 0 ->
  roll_loop (if_finite (@add_var R Arith_R)) (if_finite (@remove_var R Arith_R)) (@calc_var R Arith_R w) w l s rows =
  roll_loop (if_finite Roll_Model.add_var) (if_finite Roll_Model.remove_var) (Roll_Model.calc_var w) w l (plain s) rows.
Proof.
  assert (FA : forall m s, w_add s = 0 -> w_remove s = 0 -> let t := fold_left (if_finite (@add_var R Arith_R)) m s in
    plain t = fold_left (if_finite Roll_Model.add_var) m (plain s) /\ w_add t = 0 /\ w_remove t = 0).
  { induction m as [|[x| | |] m IH]; intros s A B; cbn [fold_left if_finite]; try (now apply IH); [now cbn|].
    destruct (plain_add s x A) as (E1 & E2 & E3). destruct (IH (@add_var R Arith_R s x) E2 (eq_trans E3 B)) as (F1 & F2 & F3). cbv zeta. rewrite F1, E1. auto. }
  assert (FR : forall m s, w_add s = 0 -> w_remove s = 0 -> let t := fold_left (if_finite (@remove_var R Arith_R)) m s in
    plain t = fold_left (if_finite Roll_Model.remove_var) m (plain s) /\ w_add t = 0 /\ w_remove t = 0).
  { induction m as [|[x| | |] m IH]; intros s A B; cbn [fold_left if_finite]; try (now apply IH); [now cbn|].
    destruct (plain_remove s x B) as (E1 & E2 & E3). destruct (IH (@remove_var R Arith_R s x) (eq_trans E2 A) E3) as (F1 & F2 & F3). cbv zeta. rewrite F1, E1. auto. }
  induction rows as [|i rows IH]; intros s A B; [reflexivity|]. cbn [roll_loop].
  set (left := match i with 0%nat => [] | S j => slice (start w j) (start w i) l end).
  destruct (FR left s A B) as (R1 & R2 & R3). destruct (FA (slice i (S i) l) _ R2 R3) as (A1 & A2 & A3). rewrite R1 in A1.
  rewrite plain_calc, IH by assumption. now rewrite A1.
Qed.
Lemma c117_exact w l : (0 < w)%nat -> @z_running R Arith_R sqrt w l = calc_z_score w l.
Proof.
  intros Hw. unfold z_running, calc_z_score. rewrite mean_real by exact Hw. f_equal. rewrite <- roll_std_eq by exact Hw. unfold roll_std, roll_var, kahan_var, roll.
  rewrite var_loop by reflexivity. apply map_ext. intros [x| | |]; try reflexivity. cbn [zroot zsqrt altb a0 Arith_R]. now destruct (Rlt_dec x 0).
Qed.

(** ** A flat market *)

Definition missing_or (p : R) (x : ext R) : Prop := x = NaN \/ x = Fin p.
Section Flat.
  Variable p : R.
  Hypothesis Hp : is_double p.
  Definition still (s : welford R) : Prop :=
    w_ssqdm s = 0 /\ w_add s = 0 /\ w_remove s = 0 /\ (w_nobs s = 0%nat /\ w_mean s = 0 \/ (0 < w_nobs s)%nat /\ w_mean s = p).
  Lemma sub_0 : @asub R DA p 0 = p.
  Proof. unfold asub. cbn [aadd aopp Arith_double]. rewrite Ropp_0, Rplus_0_r. now apply to_double_id. Qed.
  Lemma sub_same x : @asub R DA x x = 0.
  Proof. unfold asub. cbn [aadd aopp Arith_double]. rewrite Rplus_opp_r. apply to_double_0. Qed.
  Lemma add_0 : @aadd R DA 0 p = p.
  Proof. cbn [aadd Arith_double]. rewrite Rplus_0_l. now apply to_double_id. Qed.
  Lemma add_0_r : @aadd R DA p 0 = p.
  Proof. cbn [aadd Arith_double]. rewrite Rplus_0_r. now apply to_double_id. Qed.
  Lemma add_00 : @aadd R DA 0 0 = 0. Proof. cbn [aadd Arith_double]. rewrite Rplus_0_r. apply to_double_0. Qed.
  Lemma mul_0 x : @amul R DA 0 x = 0. Proof. cbn [amul Arith_double]. rewrite Rmult_0_l. apply to_double_0. Qed.
  Lemma div_0 x : @adiv R DA 0 x = 0. Proof. unfold adiv. apply mul_0. Qed.
  Lemma div_1 : @adiv R DA p (@anat R DA 1) = p.
  Proof. rewrite anat_double by lia. unfold adiv. cbn [amul ainv Arith_double]. change (INR 1) with 1. rewrite Rinv_1, Rmult_1_r. now apply to_double_id. Qed.
  Lemma still_add s : still s -> still (@add_var R DA s p).
  Proof.
    intros (A & B & C & D). unfold add_var. rewrite A, B, C, sub_0. destruct D as [[N M]|[N M]]; rewrite M.
    - rewrite N, sub_0, div_1, add_0, sub_same, mul_0, add_00, add_0_r, sub_same. repeat split. right. split; [cbn; lia|reflexivity].
    - rewrite sub_same, div_0, add_0_r, sub_same, mul_0, add_00, add_0, sub_same. repeat split. right. split; [cbn; lia|reflexivity].
  Qed.
  Lemma still_remove s : still s -> still (@remove_var R DA s p).
  Proof.
    intros (A & B & C & D). unfold remove_var. destruct (Nat.pred (w_nobs s)) as [|n] eqn:N.
    - rewrite B, C. repeat split. left. auto.
    - destruct D as [[Z _]|[_ M]]; [rewrite Z in N; discriminate|]. rewrite A, B, C, sub_0, M, sub_same, div_0, sub_0, sub_same, mul_0, add_0, sub_same, sub_same.
      repeat split. right. split; [cbn; lia|reflexivity].
  Qed.
  Lemma still_fold f l : (forall s, still s -> still (f s p)) -> Forall (missing_or p) l -> forall s, still s -> still (fold_left (if_finite f) l s).
  Proof. intros Hf F. induction F as [|x l [-> | ->] F IH]; intros s H; cbn [fold_left if_finite]; auto. Qed.
  Lemma forall_slice {A} (P : A -> Prop) i j l : Forall P l -> Forall P (slice i j l).
  Proof.
    intros F. apply Forall_forall. rewrite Forall_forall in F. intros x Hx. apply F. unfold slice in Hx. apply in_firstn in Hx.
    rewrite <- (firstn_skipn i l). apply in_or_app. now right.
  Qed.
  Lemma still_var w l : Forall (missing_or p) l -> Forall (missing_or 0) (@kahan_var R DA w l).
  Proof.
    intros F. unfold kahan_var, roll.
    assert (H : forall rows s, still s -> Forall (missing_or 0) (roll_loop (if_finite (@add_var R DA)) (if_finite (@remove_var R DA)) (@calc_var R DA w) w l s rows)).
    { induction rows as [|i rows IH]; intros s H; cbn [roll_loop]; constructor.
      - assert (S1 : still (fold_left (if_finite (@add_var R DA)) (slice i (S i) l) (fold_left (if_finite (@remove_var R DA)) match i with 0%nat => [] | S j => slice (start w j) (start w i) l end s))).
        { apply still_fold; [apply still_add|now apply forall_slice|]. apply still_fold; [apply still_remove| |exact H]. destruct i; [constructor|now apply forall_slice]. }
        destruct S1 as (E & _). unfold calc_var. rewrite E, div_0. destruct (_ && _)%bool; [|now left]. right. cbn. destruct (Rlt_dec 0 0); [lra|reflexivity].
      - apply IH. apply still_fold; [apply still_add|now apply forall_slice|]. apply still_fold; [apply still_remove| |exact H]. destruct i; [constructor|now apply forall_slice]. }
    apply H. repeat split. left. auto.
  Qed.
End Flat.
Lemma root_0 : double_root 0 = 0. Proof. unfold double_root. rewrite sqrt_0. apply to_double_0. Qed.
Lemma still_std l : Forall (missing_or 0) l -> Forall (missing_or 0) (map (@zroot R DA double_root) l).
Proof.
  intros F. induction F as [|x l [-> | ->] F IH]; cbn [map]; constructor; auto; [now left|]. right. cbn [zroot]. rewrite root_0. cbn. now destruct (Rlt_dec 0 0).
Qed.
Lemma c117_flat w l p : is_double p -> Forall (missing_or p) l -> (forall x, In x (@kahan_mean R DA w l) -> x <> PInf /\ x <> NInf) ->
  Forall (fun z => z = NaN \/ z = PInf \/ z = NInf) (@z_running R DA double_root w l).
Proof.
  intros Hp F HM. unfold z_running. pose proof (still_std _ (still_var p Hp w l F)) as FS. revert FS.
  generalize (map (@zroot R DA double_root) (@kahan_var R DA w l)). intros sd FS.
  assert (FN : Forall (fun x => x <> PInf /\ x <> NInf) (zipw (@esub R DA) l (@kahan_mean R DA w l))).
  { unfold zipw. apply Forall_forall. intros x Hx. apply in_map_iff in Hx as ([a b] & <- & Hin). cbn [fst snd].
    pose proof (in_combine_l _ _ _ _ Hin) as Ha. pose proof (in_combine_r _ _ _ _ Hin) as Hb. destruct (HM b Hb). rewrite Forall_forall in F.
    destruct (F a Ha) as [-> | ->], b; try congruence; cbn; split; discriminate. }
  revert FS. generalize dependent (zipw (@esub R DA) l (@kahan_mean R DA w l)). intros n FN. revert sd. unfold zipw. induction FN as [|x n [N1 N2] FN IH]; intros [|y sd] FS; cbn; constructor.
  - inversion_clear FS as [|? ? Hy _]. destruct Hy as [-> | ->].
    + destruct x; cbn; auto; congruence.
    + destruct x as [a| | |]; try congruence; [|now left]. unfold ediv, aeqb. cbn [altb a0 Arith_double]. destruct (Req_EM_T 0 0) as [_|N]; [|lra]. destruct (@asign R DA a); cbn; auto.
  - inversion_clear FS. now apply IH.
Qed.
Lemma mean_fin {A} `{Arith A} w l x : In x (kahan_mean w l) -> x <> PInf /\ x <> NInf.
Proof.
  unfold kahan_mean, roll. generalize (seq 0 (length l)) as rows. match goal with |- forall rows, In x (roll_loop _ _ _ _ _ ?s _) -> _ => generalize s end.
  intros s rows. revert s. induction rows as [|i rows IH]; intros s Hx; [destruct Hx|]. cbn [roll_loop] in Hx. destruct Hx as [<-|Hx]; [|eapply IH; exact Hx].
  unfold calc_mean. destruct (_ && _)%bool; [|split; discriminate]. destruct (_ && _)%bool; [split; discriminate|]. destruct (_ && _)%bool; split; discriminate.
Qed.

Lemma roll_len {V S} (f h : S -> V -> S) (g : S -> V) s w (l : list V) : length (roll f h g s w l) = length l.
Proof.
  unfold roll. transitivity (length (seq 0 (length l))); [|apply seq_length]. generalize (seq 0 (length l)) as rows. intros rows. revert s.
  induction rows as [|i rows IH]; intros s; [reflexivity|]. cbn [roll_loop length]. f_equal. apply IH.
Qed.
(** On a grid the mean of equal values is that value: nothing but missing values. *)
Lemma c117_ticks e z w (l : list (option Z)) : (-1074 <= e)%Z -> (0 < w)%nat -> (Z.abs z * Z.of_nat w < 2 ^ 53)%Z -> (Z.of_nat w <= 2 ^ 53)%Z ->
  (forall x, In x l -> x = None \/ x = Some z) -> @z_running R DA double_root w (map (in_double e) l) = map (fun _ => NaN) l.
Proof.
  intros He Hw Hz Hw' Hl. set (p := IZR z * powerRZ 2 e).
  assert (F : Forall (missing_or p) (map (in_double e) l)).
  { apply Forall_forall. intros x Hx. apply in_map_iff in Hx as (y & <- & Hy). destruct (Hl y Hy) as [-> | ->]; [now left|now right]. }
  assert (Hp : is_double p). { exists z, e. split; [reflexivity|]. split; [nia|exact He]. }
  assert (Sm : forall i, small e (finite_vals (slice (S i - w) (S i) (map (in_double e) l)))).
  { intros i. rewrite slice_map. apply small_window. eapply Z.le_lt_trans; [|exact Hz].
    assert (Ls : (length (slice (S i - w) (S i) l) <= w)%nat) by (unfold slice; rewrite firstn_length, skipn_length; lia).
    assert (A : forall x, In x (slice (S i - w) (S i) l) -> x = None \/ x = Some z).
    { intros x Hin. apply Hl. unfold slice in Hin. apply in_firstn in Hin. rewrite <- (firstn_skipn (S i - w) l). apply in_or_app. now right. }
    transitivity (Z.abs z * Z.of_nat (length (slice (S i - w) (S i) l)))%Z; [|nia].
    clear - A. induction (slice _ _ _) as [|x m IH]; [cbn; lia|]. cbn -[Z.abs Z.of_nat Z.mul]. rewrite Nat2Z.inj_succ.
    specialize (IH ltac:(intros; apply A; now right)). destruct (A x (or_introl eq_refl)) as [-> | ->]; lia. }
  unfold z_running. rewrite (mean_exact e He w) by auto.
  pose proof (flat_mean w p _ Hw F) as FM. pose proof (still_std _ (still_var p Hp w _ F)) as FS.
  assert (L1 : length (rolling w agg_mean (map (in_double e) l)) = length l) by (unfold rolling; now rewrite map_length, seq_length, map_length).
  assert (L2 : length (map (@zroot R DA double_root) (@kahan_var R DA w (map (in_double e) l))) = length l).
  { rewrite map_length. unfold kahan_var. now rewrite roll_len, map_length. }
  revert FM FS L1 L2. generalize (rolling w agg_mean (map (in_double e) l)) (map (@zroot R DA double_root) (@kahan_var R DA w (map (in_double e) l))).
  clear Sm. induction l as [|x l IH]; intros [|m ms] [|s ss] FM FS L1 L2; try discriminate; [reflexivity|]. cbn [map zipw combine]. unfold zipw in *. cbn [combine map fst snd].
  f_equal.
  - inversion_clear FM as [|? ? Hm _]. inversion_clear FS as [|? ? Hs _]. inversion_clear F as [|? ? Hx _].
    destruct Hs as [-> | ->]; [destruct (esub _ _); reflexivity|]. destruct Hm as [-> | ->]; [destruct (in_double e x); reflexivity|].
    destruct Hx as [-> | ->]; [reflexivity|]. cbn [rnd]. rewrite (to_double_id p Hp). unfold esub. cbn [eopp eadd].
    change (@aadd R DA p (@aopp R DA p)) with (@asub R DA p p). rewrite sub_same. cbn. destruct (Req_EM_T 0 0); [|lra]. unfold asign. cbn [altb a0 Arith_double]. destruct (Rlt_dec 0 0); [lra|reflexivity].
  - apply IH; [intros y Hy; apply Hl; now right|now inversion_clear F|now inversion_clear FM|now inversion_clear FS|cbn in L1; lia|cbn in L2; lia].
Qed.
