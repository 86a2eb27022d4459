(** The running updates of exponentially weighted moments compute the weighted moments. *)
From Coq Require Import Reals Lra Lia.
From Verif Require Import Prelude PreludeFacts Num Series DailyVol_Model Feat_Model Ewm_Model.
Local Open Scope R_scope.

Definition f_of (span : R) : R := 1 - 2 / (span + 1).
Lemma factor span : 1 <= span -> old_wt_factor span = f_of span.
Proof. intros H. unfold old_wt_factor, f_of. field. lra. Qed.
Lemma factor_range span : 1 <= span -> 0 <= f_of span < 1.
Proof.
  intros H. unfold f_of. assert (0 < 2 / (span + 1)) by (apply Rdiv_lt_0_compat; lra).
  assert (2 / (span + 1) <= 1) by (apply Rmult_le_reg_r with (span + 1); [lra|]; unfold Rdiv; rewrite Rmult_assoc, Rinv_l; lra). lra.
Qed.

Definition aged (f : R) (obs : list (R * R)) (x : ext R) : list (R * R) :=
  (map (fun o => (fst o * f, snd o)) obs ++ match x with Fin v => [(1, v)] | _ => [] end)%list.
Definition observed (f : R) (l : list (ext R)) : list (R * R) := fold_left (aged f) l [].

Lemma observed_snoc f l x : observed f (l ++ [x]) = aged f (observed f l) x.
Proof. unfold observed. now rewrite fold_left_app. Qed.
Lemma firstn_snoc {A} (l : list A) k x : nth_error l k = Some x -> firstn (S k) l = (firstn k l ++ [x])%list.
Proof.
  revert k. induction l as [|y l IH]; intros [|k] H; try discriminate; cbn in *; [now injection H as ->|]. now rewrite <- (IH k H).
Qed.
Lemma obs_observed span l k : (k < length l)%nat -> ewm_obs span l k = observed (f_of span) (firstn (S k) l).
Proof.
  induction k as [|k IH]; intros Hk.
  - destruct l as [|x l]; [cbn in Hk; lia|]. unfold ewm_obs, observed, aged. cbn. destruct x; reflexivity.
  - destruct (nth_error l (S k)) as [x|] eqn:E; [|apply nth_error_None in E; lia]. rewrite (firstn_snoc _ _ _ E), observed_snoc, <- IH by lia.
    unfold ewm_obs. rewrite (seq_S (S k)), flat_map_app. unfold aged. f_equal.
    + rewrite !flat_map_concat_map, concat_map, map_map. f_equal. apply map_ext_in. intros j Hj. apply in_seq in Hj.
      destruct (nth_error l j) as [[v| | |]|]; try reflexivity. cbn [map fst snd]. replace (S k - j)%nat with (S (k - j)) by lia. cbn [pow]. f_equal. f_equal. unfold f_of. ring.
    + cbn [Nat.add flat_map]. rewrite E, Nat.sub_diag. destruct x; reflexivity.
Qed.

(** A scan, position by position. *)
Lemma scan_length {S} (u : S -> ext R -> S) o l : forall s, length (scan u o s l) = length l.
Proof. induction l as [|x l IH]; intros s; [reflexivity|]. cbn. now rewrite IH. Qed.
Lemma scan_nth {S} (u : S -> ext R -> S) o l : forall s k, (k < length l)%nat -> nth_error (scan u o s l) k = Some (o (fold_left u (firstn (Datatypes.S k) l) s)).
Proof.
  induction l as [|x l IH]; intros s k Hk; [cbn in Hk; lia|]. destruct k as [|k]; [reflexivity|]. cbn [scan nth_error firstn fold_left]. cbn in Hk. rewrite IH by lia. reflexivity.
Qed.
Lemma list_eq {A} (a b : list A) : length a = length b -> (forall k, (k < length a)%nat -> nth_error a k = nth_error b k) -> a = b.
Proof.
  revert b. induction a as [|x a IH]; intros [|y b] L H; try discriminate; [reflexivity|]. f_equal.
  - specialize (H 0%nat ltac:(cbn; lia)). now injection H.
  - apply IH; [now injection L|]. intros k Hk. apply (H (S k)). cbn. lia.
Qed.

Lemma lsum_app a b : lsum (a ++ b) = lsum a + lsum b.
Proof.
  induction a as [|x a IH]; cbn [app]; [unfold lsum at 2; cbn [fold_right]; ring|].
  change (lsum (x :: a ++ b)) with (x + lsum (a ++ b)). change (lsum (x :: a)) with (x + lsum a). rewrite IH. ring.
Qed.
Lemma lsum_factor {A} (g h : A -> R) c l : (forall x, g x = c * h x) -> lsum (map g l) = c * lsum (map h l).
Proof. intros E. induction l as [|x l IH]; cbn; [lra|]. unfold lsum in *. rewrite IH, E. ring. Qed.
Definition sw (obs : list (R * R)) : R := lsum (map fst obs).
Definition swx (obs : list (R * R)) : R := lsum (map (fun o => fst o * snd o) obs).
Definition sw2 (obs : list (R * R)) : R := lsum (map (fun o => fst o * fst o) obs).
Definition dev (m : R) (obs : list (R * R)) : R := lsum (map (fun o => fst o * ((snd o - m) * (snd o - m))) obs).
Definition scaled (f : R) (obs : list (R * R)) : list (R * R) := map (fun o => (fst o * f, snd o)) obs.

Lemma sw_scaled f obs : sw (scaled f obs) = f * sw obs.
Proof. unfold sw, scaled. rewrite map_map. apply lsum_factor. intros x. cbn. ring. Qed.
Lemma swx_scaled f obs : swx (scaled f obs) = f * swx obs.
Proof. unfold swx, scaled. rewrite map_map. apply lsum_factor. intros x. cbn. ring. Qed.
Lemma sw2_scaled f obs : sw2 (scaled f obs) = f * f * sw2 obs.
Proof. unfold sw2, scaled. rewrite map_map. apply lsum_factor. intros x. cbn. ring. Qed.
Lemma dev_scaled f m obs : dev m (scaled f obs) = f * dev m obs.
Proof. unfold dev, scaled. rewrite map_map. apply lsum_factor. intros x. cbn. ring. Qed.
Lemma dev_shift m m' obs : dev m' obs = dev m obs + 2 * (m - m') * (swx obs - m * sw obs) + (m - m') * (m - m') * sw obs.
Proof. unfold dev, swx, sw. induction obs as [|o obs IH]; cbn; [ring|]. unfold lsum in *. rewrite IH. ring. Qed.
Lemma last_scaled f obs d : snd (last (scaled f obs) d) = match obs with [] => snd d | _ => snd (last obs d) end.
Proof. induction obs as [|o [|o' obs] IH]; try reflexivity. cbn [scaled map] in *. exact IH. Qed.

(** The invariant of the running mean. *)
Definition mean_inv (f : R) (obs : list (R * R)) (m w : R) : Prop :=
  obs <> [] /\ w = sw obs /\ m * w = swx obs /\ 0 <= w /\ (0 < f -> 0 < w) /\ (f = 0 -> m = snd (last obs (0, 0))).
Lemma mean_missing f obs m w : 0 <= f -> mean_inv f obs m w -> mean_inv f (scaled f obs) m (w * f).
Proof.
  intros Hf (N & W & M & P & Q & L). repeat split.
  - intros E. apply N. now destruct obs.
  - rewrite sw_scaled, W. ring.
  - rewrite swx_scaled, <- M. ring.
  - nra.
  - intros F. specialize (Q F). nra.
  - intros F. rewrite last_scaled. destruct obs; [congruence|]. now apply L.
Qed.
Definition new_mean (m w x : R) : R := if Req_EM_T m x then m else (w * m + 1 * x) / (w + 1).
Lemma mean_new f obs m w x : 0 <= f -> mean_inv f obs m w -> mean_inv f (scaled f obs ++ [(1, x)]) (new_mean m (w * f) x) (w * f + 1).
Proof.
  intros Hf I. pose proof (mean_missing _ _ _ _ Hf I) as (N & W & M & P & Q & L).
  assert (E : new_mean m (w * f) x * (w * f + 1) = w * f * m + x).
  { unfold new_mean. destruct (Req_EM_T m x) as [->|_]; [ring|field; lra]. }
  repeat split.
  - intros X. apply app_eq_nil in X. now destruct X.
  - unfold sw in *. rewrite map_app, lsum_app, <- W. cbn. ring.
  - rewrite E. unfold swx in *. rewrite map_app, lsum_app, <- M. cbn. ring.
  - lra.
  - lra.
  - intros F. rewrite last_last. cbn [snd]. unfold new_mean. destruct (Req_EM_T m x); [assumption|]. rewrite F. field.
Qed.
Lemma ewma_inv f l : 0 <= f -> match fold_left (ewma_update f) l None with None => observed f l = [] | Some (m, w) => mean_inv f (observed f l) m w end.
Proof.
  intros Hf. induction l as [|x l IH] using rev_ind; [reflexivity|]. rewrite fold_left_app, observed_snoc. cbn [fold_left].
  destruct (fold_left (ewma_update f) l None) as [[m w]|].
  - unfold ewma_update, aged. fold (scaled f (observed f l)). destruct x as [v| | |].
    + exact (mean_new f _ m w v Hf IH).
    + rewrite app_nil_r. now apply mean_missing.
    + rewrite app_nil_r. now apply mean_missing.
    + rewrite app_nil_r. now apply mean_missing.
  - rewrite IH. destruct x as [v| | |]; cbn; try reflexivity. unfold mean_inv, sw, swx. cbn. repeat split; try lra. discriminate.
Qed.

Lemma ewma_run_eq span l : 1 <= span -> ewma_run span l = ewm_mean span l.
Proof.
  intros Hs. unfold ewma_run. rewrite factor by exact Hs. pose proof (factor_range span Hs) as [F0 F1]. apply list_eq.
  - unfold ewm_mean. now rewrite scan_length, map_length, seq_length.
  - rewrite scan_length. intros k Hk. rewrite scan_nth by exact Hk. unfold ewm_mean. rewrite nth_error_map, (nth_error_nth' _ 0%nat), seq_nth by (rewrite ?seq_length; lia).
    cbn [option_map Nat.add]. f_equal. unfold ewm_mean_at. rewrite obs_observed by exact Hk. fold (f_of span).
    pose proof (ewma_inv (f_of span) (firstn (S k) l) F0) as I. destruct (fold_left _ _ None) as [[m w]|]; [|now rewrite I].
    destruct I as (N & W & M & P & Q & L). cbn [ewma_output]. destruct (observed (f_of span) (firstn (S k) l)) as [|o obs] eqn:E; [congruence|]. rewrite <- E in *.
    destruct (Req_EM_T (f_of span) 0) as [Z|Z]; [now rewrite L by exact Z|]. f_equal. fold (swx (observed (f_of span) (firstn (S k) l))). fold (sw (observed (f_of span) (firstn (S k) l))).
    rewrite <- W, <- M. field. specialize (Q ltac:(lra)). lra.
Qed.

(** The invariant of the running variance. *)
Definition cov_inv (f : R) (obs : list (R * R)) (s : cov_state) : Prop :=
  mean_inv f obs (c_mean s) (c_old_wt s) /\ c_sum_wt s = sw obs /\ c_sum_wt2 s = sw2 obs /\ c_cov s * c_old_wt s = dev (c_mean s) obs /\ 0 <= c_cov s.
Lemma ewmcov_inv f l : 0 <= f -> match fold_left (ewmcov_update f) l None with None => observed f l = [] | Some s => cov_inv f (observed f l) s end.
Proof.
  intros Hf. induction l as [|x l IH] using rev_ind; [reflexivity|]. rewrite fold_left_app, observed_snoc. cbn [fold_left].
  destruct (fold_left (ewmcov_update f) l None) as [s|].
  - destruct IH as (I & S1 & S2 & C & C0). assert (Miss : cov_inv f (scaled f (observed f l))
      {| c_mean := c_mean s; c_cov := c_cov s; c_sum_wt := c_sum_wt s * f; c_sum_wt2 := c_sum_wt2 s * (f * f); c_old_wt := c_old_wt s * f |}).
    { split; [now apply mean_missing|]. cbn. rewrite sw_scaled, sw2_scaled, dev_scaled, <- S1, <- S2, <- C. repeat split; try ring. exact C0. }
    unfold ewmcov_update, aged. fold (scaled f (observed f l)). destruct x as [v| | |]; [|rewrite app_nil_r; exact Miss..].
    destruct Miss as (I' & S1' & S2' & C' & _). cbn [c_mean c_cov c_sum_wt c_sum_wt2 c_old_wt] in *. destruct (I') as (N & W & M & P & _).
    fold (new_mean (c_mean s) (c_old_wt s * f) v). set (m' := new_mean (c_mean s) (c_old_wt s * f) v). split; [exact (mean_new f _ _ _ v Hf I)|].
    cbn [c_mean c_cov c_sum_wt c_sum_wt2 c_old_wt]. split; [|split; [|split]].
    + unfold sw in *. rewrite map_app, lsum_app, <- S1'. cbn. ring.
    + unfold sw2 in *. rewrite map_app, lsum_app, <- S2'. cbn. ring.
    + assert (D : dev m' (scaled f (observed f l)) = c_old_wt s * f * (c_cov s + (c_mean s - m') * (c_mean s - m'))).
      { rewrite (dev_shift (c_mean s)), <- C', <- M, <- W. ring. }
      unfold dev in *. rewrite map_app, lsum_app, D. cbn. field. lra.
    + apply Rmult_le_pos; [|left; apply Rinv_0_lt_compat; lra]. pose proof (Rle_0_sqr (c_mean s - m')) as Q1. pose proof (Rle_0_sqr (v - m')) as Q2. unfold Rsqr in *. nra.
  - rewrite IH. destruct x as [v| | |]; cbn; try reflexivity. unfold cov_inv, mean_inv, sw, swx, sw2, dev. cbn. repeat split; try lra. discriminate.
Qed.

Lemma ewmstd_run_eq span l : 1 <= span -> ewmstd_run span l = ewm_std span l.
Proof.
  intros Hs. unfold ewmstd_run. rewrite factor by exact Hs. pose proof (factor_range span Hs) as [F0 F1]. apply list_eq.
  - unfold ewm_std. now rewrite map_length, scan_length, map_length, seq_length.
  - rewrite map_length, scan_length. intros k Hk. rewrite nth_error_map, scan_nth by exact Hk. unfold ewm_std. rewrite nth_error_map, (nth_error_nth' _ 0%nat), seq_nth by (rewrite ?seq_length; lia).
    cbn [option_map Nat.add]. f_equal. unfold ewm_std_at. rewrite obs_observed by exact Hk. cbv zeta.
    pose proof (ewmcov_inv (f_of span) (firstn (S k) l) F0) as I. destruct (fold_left _ _ None) as [s|]; [|now rewrite I].
    destruct I as ((N & W & M & P & Q & L) & S1 & S2 & C & C0). cbn [ewmcov_output]. destruct (observed (f_of span) (firstn (S k) l)) as [|o obs] eqn:E; [congruence|]. rewrite <- E in *.
    set (ob := observed (f_of span) (firstn (S k) l)) in *. fold (sw ob) (sw2 ob) (swx ob). rewrite <- S1, <- S2. destruct (Rlt_dec 0 (c_sum_wt s * c_sum_wt s - c_sum_wt2 s)) as [D|D]; [|reflexivity].
    cbn [zsqrt]. f_equal. assert (W0 : c_sum_wt s <> 0).
    { intros Z. assert (0 <= sw2 ob); [|rewrite Z in D; lra]. unfold sw2. clear. induction ob as [|x l' IH]; cbn; [lra|]. unfold lsum in IH. nra. }
    assert (Mean : swx ob / c_sum_wt s = c_mean s) by (rewrite <- M, S1, <- W; field; rewrite W, <- S1; exact W0).
    fold (dev (swx ob / c_sum_wt s) ob). rewrite Mean, <- C. replace (c_old_wt s) with (c_sum_wt s) by (rewrite S1; now symmetry).
    replace (c_cov s * c_sum_wt s / c_sum_wt s) with (c_cov s) by (field; exact W0).
    destruct (Rlt_dec (c_sum_wt s * c_sum_wt s / (c_sum_wt s * c_sum_wt s - c_sum_wt2 s) * c_cov s) 0) as [X|_]; [|reflexivity].
    exfalso. assert (0 <= c_sum_wt s * c_sum_wt s / (c_sum_wt s * c_sum_wt s - c_sum_wt2 s)); [|nra].
    apply Rmult_le_pos; [nra|left; now apply Rinv_0_lt_compat].
Qed.
