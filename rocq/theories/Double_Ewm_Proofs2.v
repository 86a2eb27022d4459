(** Daily volatility in doubles. *)
From Coq Require Import Reals ZArith QArith Qreals Lra Lia List String.
From Verif Require Import Prelude PreludeFacts Num Series Boot_Model DailyVol_Model Feat_Model Ewm_Model Ewm_Proofs
  Double_Model Double_Spec Double_Proofs Double_Proofs2 Rounding_Model Rounding_Proofs Rounding_Arith_Model Rounding_Arith_Proofs
  Double_Vpin_Model Double_Vpin_Proofs Double_Vpin_Proofs3 Double_Cross_Proofs2 Double_Z_Model Double_Z_Proofs Double_Ewm_Model Double_Ewm_Proofs.
Import ListNotations.
Local Open Scope R_scope.
Local Notation length := List.length.

Lemma zroot_nonneg x : (x = NaN \/ exists v, x = Fin v /\ 0 <= v) -> @zroot R DA double_root x = NaN \/ exists v, @zroot R DA double_root x = Fin v /\ 0 <= v.
Proof.
  intros [-> |(v & -> & Hv)]; [now left|]. right. cbn [zroot]. eexists. split; [reflexivity|]. destruct (altb _ _); [cbn; lra|]. apply to_double_nonneg, sqrt_pos.
Qed.
Lemma scan_len {A S} (u : S -> ext A -> S) o l : forall s, length (scan_g u o s l) = length l.
Proof. induction l as [|x l IH]; intros s; [reflexivity|]. cbn. now rewrite IH. Qed.
Lemma c118_length span l : length (@ewmstd_running R DA double_root span l) = length l.
Proof. unfold ewmstd_running, ewmvar_run. now rewrite map_length, scan_len. Qed.
Lemma c118_not_negative span l : 1 <= span -> Forall (fun x => x = NaN \/ exists v, x = Fin v /\ 0 <= v) (@ewmstd_running R DA double_root span l).
Proof.
  intros H. unfold ewmstd_running, ewmvar_run. apply Forall_map. eapply Forall_impl; [intros x; apply zroot_nonneg|]. apply sound_scan; [now apply factor_bounds|exact I].
Qed.
Lemma c118_flat span l p : Forall (missing_or p) l -> Forall (missing_or 0) (@ewmstd_running R DA double_root span l).
Proof. intros F. unfold ewmstd_running, ewmvar_run. apply still_std. now apply (level_scan _ p); [|exact I]. Qed.
Lemma c118_defined span l k x : 2 <= span -> (forall y, In y l -> exists c, y = Fin c) -> nth_error (@ewmstd_running R DA double_root span l) (S k) = Some x ->
  exists v, x = Fin v /\ 0 <= v.
Proof.
  intros Hs Hl Hx. destruct l as [|y l]; [discriminate|]. destruct (Hl y (or_introl eq_refl)) as (c & ->).
  assert (N : x = NaN \/ exists v, x = Fin v /\ 0 <= v).
  { pose proof (c118_not_negative span (Fin c :: l) ltac:(lra)) as F. rewrite Forall_forall in F. apply F. eapply nth_error_In. exact Hx. }
  destruct N as [-> |N]; [|exact N]. exfalso. unfold ewmstd_running, ewmvar_run in Hx. cbn [scan_g map nth_error] in Hx.
  rewrite nth_error_map in Hx. cbn [ecov_step] in Hx.
  destruct (factor_bounds span) as [B1 B2]. specialize (B1 ltac:(lra)). specialize (B2 Hs).
  assert (FD : is_double (@wt_factor R DA span)) by (unfold wt_factor, asub; apply to_double_is).
  match type of Hx with option_map _ (nth_error (scan_g _ _ (Some ?s) _) _) = _ => assert (St : started s) end.
  { unfold started. cbn [e_sum_wt e_sum_wt2 a1 Arith_double]. split; [apply is_double_1|lra]. }
  pose proof (defined_scan _ (conj B2 (proj2 B1)) FD l (fun y Hy => Hl y (or_intror Hy)) _ St) as F. rewrite Forall_forall in F.
  match type of Hx with option_map _ (nth_error ?o k) = _ => destruct (nth_error o k) as [z|] eqn:E end; [|discriminate].
  destruct (F z (nth_error_In _ _ E)) as (v & ->). cbn [option_map zroot] in Hx. discriminate.
Qed.

(** Returns in a flat market. *)
Lemma mapM_loc {A} `{Arith A} idx close ts out (P : ext A -> Prop) : Forall P close -> mapM (loc_value idx close) ts = Ok out -> Forall P out.
Proof.
  intros F. revert out. induction ts as [|t ts IH]; intros out E; cbn [mapM] in E; [injection E as <-; constructor|].
  destruct (loc_value idx close t) as [v|] eqn:L; [|discriminate]. cbn [bind] in E. destruct (mapM (loc_value idx close) ts) as [r|]; [|discriminate]. cbn [bind] in E. injection E as <-.
  constructor; [|now apply IH]. unfold loc_value in L. destruct (position t idx) as [n|]; [|discriminate]. unfold get in L. destruct (nth_error close n) eqn:N; [|discriminate]. injection L as <-.
  rewrite Forall_forall in F. apply F. eapply nth_error_In. exact N.
Qed.
Lemma flat_return p x y : p <> 0 -> missing_or p x -> missing_or p y -> missing_or 0 (@esub R DA (@ediv R DA x y) (Fin (@a1 R DA))).
Proof.
  intros Hp [-> | ->] [-> | ->]; try now left. right. unfold ediv. cbn [aeqb a0 Arith_double]. destruct (Req_EM_T p 0); [contradiction|]. unfold esub, adiv. cbn [eopp eadd aadd aopp amul ainv a1 Arith_double].
  rewrite Rinv_r by exact Hp. rewrite (to_double_id 1 is_double_1), Rplus_opp_r. now rewrite to_double_0.
Qed.
Lemma flat_number p : p <> 0 -> @esub R DA (@ediv R DA (Fin p) (Fin p)) (Fin (@a1 R DA)) = Fin 0.
Proof.
  intros Hp. unfold ediv. cbn [aeqb a0 Arith_double]. destruct (Req_EM_T p 0); [contradiction|]. unfold esub, adiv. cbn [eopp eadd aadd aopp amul ainv a1 Arith_double].
  rewrite Rinv_r by exact Hp. now rewrite (to_double_id 1 is_double_1), Rplus_opp_r, to_double_0.
Qed.
Lemma combine_snd {A B} (a : list A) (b : list B) : Forall (fun y => In y b) (map snd (combine a b)).
Proof. apply Forall_forall. intros y Hy. apply in_map_iff in Hy as ([x z] & <- & Hin). eapply in_combine_r. exact Hin. Qed.
Lemma flat_returns (P Q : ext R -> Prop) idx close r : (forall x y, P x -> P y -> Q (@esub R DA (@ediv R DA x y) (Fin (@a1 R DA)))) -> Forall P close ->
  @daily_returns R DA idx close = Ok r -> Forall Q (map snd r).
Proof.
  intros PQ F. unfold daily_returns. destruct (mapM _ (filter _ _)) as [refs|]; [|discriminate]. cbn [bind].
  destruct (mapM (loc_value idx close) (skipn _ _)) as [cur|] eqn:C; [|discriminate]. cbn [bind]. destruct (mapM (loc_value idx close) refs) as [ref|] eqn:Rf; [|discriminate]. cbn [bind].
  intros [= <-]. pose proof (mapM_loc (A := R) (H := DA) _ _ _ _ P F C) as Fc. pose proof (mapM_loc (A := R) (H := DA) _ _ _ _ P F Rf) as Fr.
  eapply Forall_impl; [|apply combine_snd]. intros y Hy. cbn beta in Hy. apply in_map_iff in Hy as (z & <- & Hz). unfold zipw in Hz. apply in_map_iff in Hz as ([u v] & <- & Hin). cbn [fst snd].
  rewrite Forall_forall in Fc, Fr. apply PQ; [apply Fc; eapply in_combine_l; exact Hin|apply Fr; eapply in_combine_r; exact Hin].
Qed.
Lemma c118_flat_market span idx close p r : p <> 0 -> Forall (missing_or p) close -> daily_vol_running DA double_root span idx close = Ok r ->
  Forall (missing_or 0) (map snd r).
Proof.
  intros Hp F. unfold daily_vol_running, get_daily_vol. destruct (daily_returns idx close) as [q|] eqn:E; [|discriminate]. cbn [bind]. intros [= <-].
  pose proof (flat_returns (missing_or p) (missing_or 0) idx close q (fun x y => flat_return p x y Hp) F E) as Fq.
  pose proof (c118_flat span _ 0 Fq) as G. rewrite Forall_forall in G. eapply Forall_impl; [|apply combine_snd]. intros y Hy. now apply G.
Qed.
Lemma nth_combine {A B} (a : list A) (b : list B) k x y : nth_error (combine a b) k = Some (x, y) -> nth_error b k = Some y.
Proof. revert b k. induction a as [|u a IH]; intros [|v b] [|k] E; cbn in *; try discriminate; [congruence|now apply (IH b k)]. Qed.
Lemma c118_flat_prices span idx close p r k t v : 2 <= span -> p <> 0 -> Forall (fun x => x = Fin p) close -> daily_vol_running DA double_root span idx close = Ok r ->
  nth_error r (S k) = Some (t, v) -> v = Fin 0.
Proof.
  intros Hs Hp F E Hv.
  assert (Z : missing_or 0 v).
  { assert (F' : Forall (missing_or p) close) by (eapply Forall_impl; [|exact F]; intros x Hx; now right).
    pose proof (c118_flat_market span idx close p r Hp F' E) as G. rewrite Forall_forall in G. apply G. apply in_map_iff. exists (t, v). split; [reflexivity|]. eapply nth_error_In. exact Hv. }
  destruct Z as [-> | ->]; [|reflexivity]. exfalso. unfold daily_vol_running, get_daily_vol in E. destruct (daily_returns idx close) as [q|] eqn:D; [|discriminate]. cbn [bind] in E. injection E as <-.
  assert (Fq : Forall (fun x => exists c, x = Fin c) (map snd q)).
  { apply (flat_returns (fun x => x = Fin p) _ idx close q); [|exact F|exact D]. intros x y -> ->. exists 0. now apply flat_number. }
  rewrite Forall_forall in Fq. apply nth_combine in Hv. destruct (c118_defined span _ k NaN Hs Fq Hv) as (c & Hc & _). discriminate.
Qed.

(** ** One return and then missing ones *)

Lemma factor_real span : ~ (@aadd Q RA (@a1 Q RA) (@adiv Q RA (@asub Q RA span (@a1 Q RA)) (@aadd Q RA (@a1 Q RA) (@a1 Q RA))) == 0)%Q ->
  Q2R (@wt_factor Q RA span) = @wt_factor R DA (Q2R span).
Proof.
  intros N. unfold wt_factor. rewrite real_asub, real_adiv by exact N. rewrite real_aadd, real_adiv by (vm_compute; discriminate). rewrite real_asub, real_aadd.
  change (@a1 Q RA) with 1%Q. change (@a1 R DA) with 1. now rewrite RMicromega.Q2R_1.
Qed.
(** The sums of weights after k missing rows. *)
Fixpoint weights {A} `{Arith A} (f : A) (k : nat) : A * A :=
  match k with O => (a1, a1) | S k => (amul (fst (weights f k)) f, amul (snd (weights f k)) (amul f f)) end.
Lemma weights_real f k : weights (A := R) (H := DA) (Q2R f) k = (Q2R (fst (weights (A := Q) (H := RA) f k)), Q2R (snd (weights (A := Q) (H := RA) f k))).
Proof.
  induction k as [|k IH]; cbn [weights fst snd]; [change (@a1 Q RA) with 1%Q; change (@a1 R DA) with 1; now rewrite RMicromega.Q2R_1|]. rewrite IH. cbn [fst snd]. now rewrite !real_amul.
Qed.
Lemma missing_rows {A} `{Arith A} (f x : A) k : fold_left (ecov_step f) (Fin x :: repeat NaN k) None =
  Some {| e_mean := x; e_cov := a0; e_sum_wt := fst (weights f k); e_sum_wt2 := snd (weights f k); e_old_wt := fst (weights f k) |}.
Proof.
  induction k as [|k IH]; [reflexivity|]. replace (Fin x :: repeat NaN (S k)) with ((Fin x :: repeat NaN k) ++ [NaN])%list
    by (cbn [app]; f_equal; rewrite <- repeat_cons; reflexivity).
  rewrite fold_left_app, IH. reflexivity.
Qed.
Lemma scan_at {A S} (u : S -> ext A -> S) o l : forall s k, (k < length l)%nat -> nth_error (scan_g u o s l) k = Some (o (fold_left u (firstn (Datatypes.S k) l) s)).
Proof.
  induction l as [|x l IH]; intros s k Hk; [cbn in Hk; lia|]. destruct k as [|k]; [reflexivity|]. cbn [scan_g nth_error firstn fold_left]. cbn in Hk. rewrite IH by lia. reflexivity.
Qed.
Definition one_return (k : nat) (x : R) : list (ext R) := Fin x :: repeat NaN k.
Lemma firstn_repeat {A} (x : A) k n : (k <= n)%nat -> firstn k (repeat x n) = repeat x k.
Proof. revert n. induction k as [|k IH]; intros [|n] H; try reflexivity; [lia|]. cbn. f_equal. apply IH. lia. Qed.
Lemma one_return_out span k x : (let f := @wt_factor R DA span in let w := weights (A := R) (H := DA) f k in 0 < @asub R DA (@amul R DA (fst w) (fst w)) (snd w)) ->
  nth_error (@ewmstd_running R DA double_root span (one_return k x)) k = Some (Fin 0).
Proof.
  cbv zeta. intros H. unfold ewmstd_running, ewmvar_run. rewrite nth_error_map, scan_at by (cbn; rewrite repeat_length; lia).
  unfold one_return. cbn [firstn]. rewrite firstn_repeat by lia. rewrite missing_rows. cbn [option_map ecov_out e_sum_wt e_sum_wt2 e_cov altb a0 Arith_double].
  destruct (Rlt_dec 0 _) as [_|N]; [|contradiction]. cbn [zroot altb a0 amul Arith_double]. rewrite Rmult_0_r, to_double_0.
  destruct (Rlt_dec 0 0) as [?|_]; [lra|]. now rewrite root_0.
Qed.
(** In exact arithmetic one return has no deviation. *)
Lemma one_return_exact span k x : 1 <= span -> nth_error (ewm_std span (one_return k x)) k = Some NaN.
Proof.
  intros H. rewrite <- ewmstd_run_eq, <- ewmstd_exact by exact H. unfold ewmstd_running, ewmvar_run. rewrite nth_error_map, scan_at by (cbn; rewrite repeat_length; lia).
  unfold one_return. cbn [firstn]. rewrite firstn_repeat by lia. rewrite missing_rows. cbn [option_map ecov_out e_sum_wt e_sum_wt2 e_cov altb a0 Arith_R].
  generalize (@wt_factor R Arith_R span) as f. intros f.
  assert (E : snd (weights (A := R) (H := Arith_R) f k) = fst (weights (A := R) (H := Arith_R) f k) * fst (weights (A := R) (H := Arith_R) f k)).
  { induction k as [|k IH]; cbn [weights fst snd amul a1 Arith_R]; [ring|]. rewrite IH. ring. }
  rewrite E. unfold asub. cbn [aadd aopp amul Arith_R]. rewrite Rplus_opp_r. destruct (Rlt_dec 0 0); [lra|reflexivity].
Qed.
Lemma c118_one_return x : nth_error (@ewmstd_running R DA double_root 100 (one_return 8 x)) 8 = Some (Fin 0).
Proof.
  apply one_return_out. cbv zeta. replace 100 with (Q2R 100) by (unfold Q2R; cbn; lra). rewrite <- factor_real by (vm_compute; discriminate). rewrite weights_real. cbn [fst snd].
  rewrite <- real_amul, <- real_asub, <- real_0. apply Qlt_Rlt. vm_compute. reflexivity.
Qed.
