(** Window statistics and exponential averages move by no more than the data. *)
From Coq Require Import Reals ZArith Lra Lia List.
From Verif Require Import Prelude PreludeFacts Num Series DailyVol_Model Feat_Model Feat_Proofs Double_Bound_Spec Double_Vol_Proofs Stable_Spec.
Import ListNotations.
Local Open Scope R_scope.

Definition apart (e : R) (a b : R) : Prop := Rabs (a - b) <= e.
Lemma apart_iff e a b : apart e a b <-> - e <= a - b <= e.
Proof. unfold apart. split; intros H; [unfold Rabs in H; destruct (Rcase_abs _); lra|apply Rabs_le; lra]. Qed.
Lemma Forall2_firstn {A B} (P : A -> B -> Prop) n l l' : Forall2 P l l' -> Forall2 P (firstn n l) (firstn n l').
Proof. intros F. revert n. induction F; intros [|n]; cbn; constructor; auto. Qed.
Lemma Forall2_skipn {A B} (P : A -> B -> Prop) n l l' : Forall2 P l l' -> Forall2 P (skipn n l) (skipn n l').
Proof. intros F. revert n. induction F; intros [|n]; cbn; auto. Qed.
Lemma revised_values e c c' : revised e c c' -> Forall2 (apart e) (finite_vals c) (finite_vals c').
Proof. intros F. induction F as [|x y c c' H F IH]; cbn; [constructor|]. destruct x, y; try contradiction; cbn; try exact IH. constructor; [exact H|exact IH]. Qed.
Lemma revised_slice e i j c c' : revised e c c' -> revised e (slice i j c) (slice i j c').
Proof. intros F. unfold slice. now apply Forall2_firstn, Forall2_skipn. Qed.
Lemma revised_length e c c' : revised e c c' -> length c = length c'.
Proof. apply Forall2_len. Qed.

(** Both missing, or both numbers in the relation. *)
Definition related (P : R -> R -> Prop) (x y : ext R) : Prop := match x, y with Fin a, Fin b => P a b | NaN, NaN => True | _, _ => False end.
Lemma rolling_related (P : R -> R -> Prop) e w agg c c' : (forall v v', Forall2 (apart e) v v' -> (w <= length v)%nat -> related P (agg v) (agg v')) -> revised e c c' ->
  Forall2 (related P) (rolling w agg c) (rolling w agg c').
Proof.
  intros H F. unfold rolling. rewrite <- (revised_length e c c' F). induction (seq 0 (length c)) as [|i l IH]; cbn [map]; constructor; [|exact IH].
  pose proof (revised_values e _ _ (revised_slice e (S i - w) (S i) c c' F)) as V. rewrite <- (Forall2_len _ _ _ V). destruct (Nat.leb_spec w (length (finite_vals (slice (S i - w) (S i) c)))); [now apply H|exact I].
Qed.

Lemma lsum_apart e v v' : Forall2 (apart e) v v' -> - (INR (length v) * e) <= lsum v - lsum v' <= INR (length v) * e.
Proof.
  intros F. induction F as [|a b v v' H F IH]; [cbn; lra|]. apply apart_iff in H. cbn [length lsum fold_right]. rewrite S_INR. unfold lsum in IH. lra.
Qed.
Lemma mean_apart e v v' : Forall2 (apart e) v v' -> related (apart e) (agg_mean v) (agg_mean v').
Proof.
  intros F. destruct F as [|a b v v' H F]; [exact I|]. cbn [agg_mean related]. pose proof (lsum_apart e (a :: v) (b :: v') ltac:(now constructor)) as S. unfold mean. pose proof (Forall2_len _ _ _ F) as L.
  assert (L' : length (b :: v') = length (a :: v)) by (cbn; now rewrite L). rewrite L'. assert (N : 0 < INR (length (a :: v))) by (apply lt_0_INR; cbn; lia). set (n := INR (length (a :: v))) in *. apply apart_iff. split.
  - apply (Rmult_le_reg_r n); [exact N|]. replace ((lsum (a :: v) / n - lsum (b :: v') / n) * n) with (lsum (a :: v) - lsum (b :: v')) by (field; lra). lra.
  - apply (Rmult_le_reg_r n); [exact N|]. replace ((lsum (a :: v) / n - lsum (b :: v') / n) * n) with (lsum (a :: v) - lsum (b :: v')) by (field; lra). lra.
Qed.
Lemma max_apart e v v' : Forall2 (apart e) v v' -> related (apart e) (agg_max v) (agg_max v').
Proof.
  intros F. destruct F as [|a b v v' H F]; [exact I|]. cbn [agg_max related]. revert a b H. induction F as [|x y v v' Hx F IH]; intros a b H; cbn [fold_left]; [exact H|]. apply IH.
  apply apart_iff in H, Hx. apply apart_iff. unfold Rmax. destruct (Rle_dec a x), (Rle_dec b y); lra.
Qed.
Lemma min_apart e v v' : Forall2 (apart e) v v' -> related (apart e) (agg_min v) (agg_min v').
Proof.
  intros F. destruct F as [|a b v v' H F]; [exact I|]. cbn [agg_min related]. revert a b H. induction F as [|x y v v' Hx F IH]; intros a b H; cbn [fold_left]; [exact H|]. apply IH.
  apply apart_iff in H, Hx. apply apart_iff. unfold Rmin. destruct (Rle_dec a x), (Rle_dec b y); lra.
Qed.

(** The sample deviation, as the weighted one with equal weights. *)
Definition unit_obs (v v' : list R) : list obs2 := map (fun p => (1, p)) (combine v v').
Lemma unit_weighed v v' : weighed (unit_obs v v'). Proof. intros p Hp. apply in_map_iff in Hp as (q & <- & _). cbn. lra. Qed.
Lemma unit_count v v' : length v = length v' -> wsum (fun _ => 1) (unit_obs v v') = INR (length v).
Proof. revert v'. induction v as [|a v IH]; intros [|b v'] L; try discriminate; [reflexivity|]. injection L as L. cbn [unit_obs combine map length]. rewrite wsum_cons, S_INR. fold (unit_obs v v'). rewrite IH by exact L. cbn. lra. Qed.
Lemma unit_squares v v' : length v = length v' -> lsum (map (fun p => fst p * fst p) (unit_obs v v')) = INR (length v).
Proof. revert v'. induction v as [|a v IH]; intros [|b v'] L; try discriminate; [reflexivity|]. injection L as L. cbn [unit_obs combine map length lsum fold_right]. rewrite S_INR, <- (IH v' L). unfold lsum, unit_obs. cbn. lra. Qed.
Lemma unit_fst f v v' : length v = length v' -> wsum (fun x => f (fst x)) (unit_obs v v') = lsum (map f v).
Proof. revert v'. induction v as [|a v IH]; intros [|b v'] L; try discriminate; [reflexivity|]. injection L as L. cbn [unit_obs combine map lsum fold_right]. rewrite wsum_cons. fold (unit_obs v v'). rewrite IH by exact L. cbn. unfold lsum. ring. Qed.
Lemma unit_snd f v v' : length v = length v' -> wsum (fun x => f (snd x)) (unit_obs v v') = lsum (map f v').
Proof. revert v'. induction v as [|a v IH]; intros [|b v'] L; try discriminate; [reflexivity|]. injection L as L. cbn [unit_obs combine map lsum fold_right]. rewrite wsum_cons. fold (unit_obs v v'). rewrite IH by exact L. cbn. unfold lsum. ring. Qed.
Lemma var_sums v : lsum (map (fun x => (x - mean v) * (x - mean v)) v) = lsum (map (fun x => x * x) v) - 2 * mean v * lsum v + mean v * mean v * INR (length v).
Proof. generalize (mean v) as m. intros m. induction v as [|a v IH]; [cbn; ring|]. cbn [map lsum fold_right length]. unfold lsum in IH. rewrite IH, S_INR. unfold lsum. ring. Qed.
Lemma std_apart e v v' : Forall2 (apart e) v v' -> related (apart (sqrt 2 * e)) (agg_std v) (agg_std v').
Proof.
  intros F. pose proof (Forall2_len _ _ _ F) as L. unfold agg_std. rewrite <- L. destruct (Nat.leb_spec (length v) 1) as [N|N]; [exact I|]. cbn [related].
  assert (He : 0 <= e) by (destruct F as [|a b v v' H _]; [cbn in N; lia|unfold apart in H; pose proof (Rabs_pos (a - b)); lra]).
  set (T := unit_obs v v'). assert (ET : forall p, In p T -> Rabs (fst (snd p) - snd (snd p)) <= e).
  { intros p Hp. apply in_map_iff in Hp as ([a b] & <- & Hin). cbn. clear -F Hin. induction F as [|x y v v' H F IH]; [contradiction|]. destruct Hin as [E|Hin]; [injection E as <- <-; exact H|now apply IH]. }
  pose proof (roots_close T e (unit_weighed v v') ET) as C. pose proof (pairs_one T) as O. rewrite (pairs_spread fst T), (pairs_spread snd T) in C. unfold T in C, O. rewrite (unit_count v v' L), (unit_squares v v' L) in O. 
  rewrite (unit_count v v' L), (unit_fst (fun x => x * x) v v' L), (unit_snd (fun x => x * x) v v' L) in C.
  replace (wsum fst (unit_obs v v')) with (lsum v) in C by (rewrite <- (map_id v) at 1; symmetry; apply (unit_fst (fun x => x) v v' L)).
  replace (wsum snd (unit_obs v v')) with (lsum v') in C by (rewrite <- (map_id v') at 1; symmetry; apply (unit_snd (fun x => x) v v' L)).
  set (n := INR (length v)) in *. assert (n2 : 2 <= n) by (unfold n; replace 2 with (INR 2) by (cbn; ring); now apply le_INR).
  assert (V : forall u, length u = length v -> variance u = (n * lsum (map (fun x => x * x) u) - lsum u * lsum u) / (n * (n - 1))).
  { intros u Lu. unfold variance. rewrite var_sums. unfold mean. rewrite Lu. fold n. field. lra. }
  rewrite (V v eq_refl), (V v' (eq_sym L)). set (k := n * (n - 1)) in *. assert (K : 0 < k) by (unfold k; apply Rmult_lt_0_compat; lra). assert (O' : pairs (fun _ _ => 1) (unit_obs v v') = k / 2) by (unfold k; lra). rewrite O' in C.
  set (n1 := n * lsum (map (fun x => x * x) v) - lsum v * lsum v) in *. set (n2' := n * lsum (map (fun x => x * x) v') - lsum v' * lsum v') in *.
  rewrite !sqrt_div_alt by exact K. pose proof (sqrt_sqrt k ltac:(lra)) as Q. assert (NZ : 0 < sqrt k) by (apply sqrt_lt_R0; exact K).
  unfold apart. apply Rsqr_incr_0_var; [|apply Rmult_le_pos; [apply sqrt_pos|exact He]]. rewrite <- Rsqr_abs, Rsqr_mult, Rsqr_sqrt by lra.
  replace (sqrt n1 / sqrt k - sqrt n2' / sqrt k) with ((sqrt n1 - sqrt n2') * / sqrt k) by (unfold Rdiv; ring). apply (Rmult_le_reg_r k); [exact K|]. rewrite <- Q at 2. unfold Rsqr.
  replace ((sqrt n1 - sqrt n2') * / sqrt k * ((sqrt n1 - sqrt n2') * / sqrt k) * (sqrt k * sqrt k)) with ((sqrt n1 - sqrt n2') * (sqrt n1 - sqrt n2')) by (field; lra). lra.
Qed.

(** Exponential averages. *)
Lemma obs_revised e span k c c' js : 1 <= span -> revised e c c' -> Forall2 (fun o o' => 0 <= fst o /\ fst o = fst o' /\ apart e (snd o) (snd o'))
  (flat_map (fun j => match nth_error c j with Some (Fin x) => [((1 - 2 / (span + 1)) ^ (k - j), x)] | _ => [] end) js)
  (flat_map (fun j => match nth_error c' j with Some (Fin x) => [((1 - 2 / (span + 1)) ^ (k - j), x)] | _ => [] end) js).
Proof.
  intros Hs F. assert (Hw : 0 <= 1 - 2 / (span + 1)). { replace (1 - 2 / (span + 1)) with ((span - 1) * / (span + 1)) by (field; lra). apply Rmult_le_pos; [lra|]. apply Rlt_le, Rinv_0_lt_compat. lra. }
  induction js as [|j js IH]; cbn [flat_map]; [constructor|]. apply Forall2_app; [|exact IH]. clear IH. revert j. set (q := 1 - 2 / (span + 1)) in *. clearbody q.
  intros j. assert (G : forall m, Forall2 (fun o o' => 0 <= fst o /\ fst o = fst o' /\ apart e (snd o) (snd o')) (match nth_error c j with Some (Fin x) => [(q ^ m, x)] | _ => [] end) (match nth_error c' j with Some (Fin x) => [(q ^ m, x)] | _ => [] end)); [|apply G].
  intros m. revert j. induction F as [|x y c c' H F IH]; intros [|j]; cbn [nth_error]; [constructor|constructor| |apply IH].
  destruct x, y; try contradiction; constructor; [|constructor]. cbn. split; [now apply pow_le|]. split; [reflexivity|exact H].
Qed.
Lemma weighted_apart e (o o' : list (R * R)) : Forall2 (fun o o' => 0 <= fst o /\ fst o = fst o' /\ apart e (snd o) (snd o')) o o' ->
  lsum (map fst o) = lsum (map fst o') /\ 0 <= lsum (map fst o) /\
  - (lsum (map fst o) * e) <= lsum (map (fun p => fst p * snd p) o) - lsum (map (fun p => fst p * snd p) o') <= lsum (map fst o) * e.
Proof.
  intros F. induction F as [|[w a] [w' b] o o' (W & E & H) F (I1 & I2 & I3)]; [cbn; lra|]. cbn [fst snd] in *. subst w'. apply apart_iff in H. cbn [map lsum fold_right fst snd]. unfold lsum in *. rewrite I1 in *.
  split; [reflexivity|]. split; [lra|]. nra.
Qed.
Lemma obs_positive span c k o : 1 <= span -> 1 - 2 / (span + 1) <> 0 -> In o (ewm_obs span c k) -> 0 < fst o.
Proof.
  intros Hs Hq Hin. assert (Hw : 0 <= 1 - 2 / (span + 1)). { replace (1 - 2 / (span + 1)) with ((span - 1) * / (span + 1)) by (field; lra). apply Rmult_le_pos; [lra|]. apply Rlt_le, Rinv_0_lt_compat. lra. }
  unfold ewm_obs in Hin. apply in_flat_map in Hin as (j & _ & Hj). destruct (nth_error c j) as [[x| | |]|]; try contradiction. destruct Hj as [<-|[]]. cbn [fst]. apply pow_lt. lra.
Qed.
Lemma ewm_apart e span c c' : 1 <= span -> revised e c c' -> Forall2 (related (apart e)) (ewm_mean span c) (ewm_mean span c').
Proof.
  intros Hs F. unfold ewm_mean. rewrite <- (revised_length e c c' F). induction (seq 0 (length c)) as [|k l IH]; cbn [map]; constructor; [|exact IH]. clear IH.
  unfold ewm_mean_at. pose proof (obs_revised e span k c c' (seq 0 (S k)) Hs F) as O. pose proof (fun o => obs_positive span c k o Hs) as Pos. fold (ewm_obs span c k) in O. fold (ewm_obs span c' k) in O.
  destruct (weighted_apart e _ _ O) as (E & P & Q). destruct O as [|o o' r r' (W & E1 & H) O]; [exact I|]. destruct (Req_EM_T _ 0) as [Z|Z]; cbn [related].
  - clear -H O. revert o o' H. induction O as [|p p' r r' (W & E1 & H') O IH]; intros o o' H; [exact H|]. exact (IH p p' H').
  - rewrite <- E. assert (S0 : 0 < lsum (map fst (o :: r))).
    { pose proof (Pos o Z (or_introl eq_refl)) as Po. destruct (weighted_apart e r r' O) as (_ & Pr & _). cbn [map lsum fold_right]. unfold lsum in Pr. lra. }
    set (s := lsum (map fst (o :: r))) in *. apply apart_iff. split; apply (Rmult_le_reg_r s); try exact S0.
    + match goal with |- _ <= (?a / s - ?b / s) * s => replace ((a / s - b / s) * s) with (a - b) by (field; lra) end. lra.
    + match goal with |- (?a / s - ?b / s) * s <= _ => replace ((a / s - b / s) * s) with (a - b) by (field; lra) end. lra.
Qed.
