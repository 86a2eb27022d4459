(** C127: exponential averages forget the early history at a known rate. *)
From Coq Require Import Reals Lra Lia ZArith List String.
From Verif Require Import Prelude PreludeFacts Num Series DailyVol_Model Feat_Model Feat_Spec Feat_Proofs Feat_Proofs8 Ewma_Late_Proofs.
Import ListNotations.
Local Notation length := List.length.
Local Open Scope nat_scope.

(** The average over all rows and the one that starts after the rows [P], when all values lie between [lo] and [hi]. *)
Theorem C127_average : forall span (P T : list R) i lo hi, (1 <= span)%R -> i < length T -> Forall (fun x => lo <= x <= hi)%R (P ++ T) ->
  exists v v', nth_error (ewm_mean span (map Fin (P ++ T))) (length P + i) = Some (Fin v) /\ nth_error (ewm_mean span (map Fin T)) i = Some (Fin v') /\
    (Rabs (v - v') <= (1 - 2 / (span + 1)) ^ (i + 1) * (hi - lo))%R.
Proof.
  intros span P T i lo hi Hs Hi F. destruct (ewm_mean_fin span (P ++ T)) as [_ V]. destruct (ewm_mean_fin span T) as [_ V'].
  exists (ewma span (P ++ T) (length P + i)), (ewma span T i). split; [apply V; rewrite app_length; lia|]. split; [apply V'; exact Hi|]. exact (ewma_late span P T i lo hi Hs Hi F).
Qed.
Print Assumptions C127_average.

(** The difference of a fast and a slow average. *)
Theorem C127_difference : forall X X' name fast slow (P T : list R) lo hi, has_column X name (P ++ T) -> has_column X' name T ->
  (1 <= fast)%R -> (1 <= slow)%R -> Forall (fun x => lo <= x <= hi)%R (P ++ T) ->
  exists out out', ewma_difference fast slow false name X = Ok out /\ ewma_difference fast slow false name X' = Ok out' /\
    forall i, i < length T -> exists v v', nth_error out (length P + i) = Some (Fin v) /\ nth_error out' i = Some (Fin v') /\
      (Rabs (v - v') <= ((1 - 2 / (fast + 1)) ^ (i + 1) + (1 - 2 / (slow + 1)) ^ (i + 1)) * (hi - lo))%R.
Proof.
  intros X X' name fast slow P T lo hi HX HX' Hf Hs F. destruct (ewma_formula X fast slow name _ Hf Hs HX) as [(out & E & V1 & V) _]. destruct (ewma_formula X' fast slow name _ Hf Hs HX') as [(out' & E' & V1' & V') _].
  exists out, out'. split; [exact E|]. split; [exact E'|]. intros i Hi. eexists _, _. split; [apply V; rewrite app_length; lia|]. split; [apply V'; exact Hi|].
  pose proof (ewma_late fast P T i lo hi Hf Hi F) as A. pose proof (ewma_late slow P T i lo hi Hs Hi F) as B. unfold decay in A, B.
  match goal with |- (Rabs (?a - ?b - (?c - ?d)) <= _)%R => replace (a - b - (c - d))%R with ((a - c) + - (b - d))%R by ring end.
  eapply Rle_trans; [apply Rabs_triang|]. rewrite Rabs_Ropp. lra.
Qed.
Print Assumptions C127_difference.

(** So after enough rows, a number that depends only on the span, the range of the data and the tolerance, the two averages are as near as wanted. *)
Theorem C127_warm_up : forall span lo hi eps, (1 <= span)%R -> (0 < eps)%R -> exists N, forall (P T : list R) i, N <= i -> i < length T -> Forall (fun x => lo <= x <= hi)%R (P ++ T) ->
  exists v v', nth_error (ewm_mean span (map Fin (P ++ T))) (length P + i) = Some (Fin v) /\ nth_error (ewm_mean span (map Fin T)) i = Some (Fin v') /\ (Rabs (v - v') < eps)%R.
Proof.
  intros span lo hi eps Hs He. pose proof (decay_range span Hs) as Hd. assert (M : (0 < Rabs (hi - lo) + 1)%R) by (pose proof (Rabs_pos (hi - lo)); lra).
  destruct (pow_lt_1_zero (decay span) ltac:(rewrite Rabs_pos_eq; lra) (eps / (Rabs (hi - lo) + 1))%R ltac:(apply Rdiv_lt_0_compat; lra)) as (N & HN). exists N. intros P T i Hi Li F.
  destruct (C127_average span P T i lo hi Hs Li F) as (v & v' & E & E' & B). exists v, v'. split; [exact E|]. split; [exact E'|]. fold (decay span) in B. specialize (HN (i + 1) ltac:(lia)).
  assert (K : (0 <= decay span ^ (i + 1))%R) by (apply pow_le; lra). rewrite Rabs_pos_eq in HN by exact K.
  apply (Rmult_lt_compat_r _ _ _ M) in HN. unfold Rdiv in HN. rewrite (Rmult_assoc eps), Rinv_l, Rmult_1_r in HN by lra.
  pose proof (Rle_abs (hi - lo)) as Q. assert (decay span ^ (i + 1) * (hi - lo) <= decay span ^ (i + 1) * (Rabs (hi - lo) + 1))%R by (apply Rmult_le_compat_l; lra). lra.
Qed.
Print Assumptions C127_warm_up.

(** A case: span 3 halves the influence of the past at each row. *)
Example C127_case : exists v v', nth_error (ewm_mean 3 (map Fin ([0; 8] ++ [4; 4])))%R (2 + 1) = Some (Fin v) /\ nth_error (ewm_mean 3 (map Fin [4; 4]))%R 1 = Some (Fin v') /\ (Rabs (v - v') <= 2)%R.
Proof.
  destruct (C127_average 3 [0; 8]%R [4; 4]%R 1 0 8 ltac:(lra) ltac:(cbn; lia)) as (v & v' & E & E' & B); [repeat (apply Forall_cons; [lra|]); apply Forall_nil|]. exists v, v'. split; [exact E|]. split; [exact E'|].
  eapply Rle_trans; [exact B|]. cbn [Nat.add pow]. lra.
Qed.
