(** Proofs: exponential and moving averages of prices that move in one direction. *)
From Coq Require Import Reals Lra Lia ZArith String.
From Verif Require Import PreludeFacts Series DailyVol_Model Feat_Model Feat_Spec Feat_Proofs Feat_Proofs2 Feat_Proofs3 Feat_Proofs4 Feat_Proofs5 Feat_Proofs8 Direction_Spec.
Local Open Scope nat_scope.

(** ** Exponential averages *)
Definition wsum (d : R) (i : nat) : R := rsum (map (fun j => d ^ j)%R (seq 0 (i + 1))).
Definition psum (d : R) (c : list R) (i : nat) : R := rsum (map (fun j => d ^ j * row c (i - j))%R (seq 0 (i + 1))).
Lemma rsum_scal k (f : nat -> R) l : rsum (map (fun j => k * f j)%R l) = (k * rsum (map f l))%R.
Proof. induction l as [|x l IH]; cbn [map]; [cbn; lra|]. rewrite !rsum_cons, IH. lra. Qed.
Lemma wsum_S d i : wsum d (S i) = (1 + d * wsum d i)%R.
Proof.
  unfold wsum. replace (S i + 1) with (S (i + 1)) by lia. cbn [seq map]. rewrite rsum_cons, <- seq_shift, map_map. cbn [pow]. now rewrite rsum_scal.
Qed.
Lemma psum_S d c i : psum d c (S i) = (row c (S i) + d * psum d c i)%R.
Proof.
  unfold psum. replace (S i + 1) with (S (i + 1)) by lia. cbn [seq map]. rewrite rsum_cons, <- seq_shift, map_map. rewrite <- rsum_scal. cbn [pow Nat.sub]. f_equal; [lra|]. f_equal. apply map_ext. intros j. lra.
Qed.
Lemma wsum_pos d i : (0 <= d)%R -> (1 <= wsum d i)%R.
Proof. intros. now apply weights_sum. Qed.
Lemma wsum_mono a b i : (0 <= a <= b)%R -> (wsum a i <= wsum b i)%R.
Proof.
  intros H. induction i as [|i IH]; [unfold wsum; cbn; lra|]. rewrite !wsum_S. pose proof (wsum_pos a i ltac:(lra)).
  assert (a * wsum a i <= b * wsum b i)%R by (apply Rmult_le_compat; lra). lra.
Qed.
(** The gap between the last price and the average. *)
Definition gap (d : R) (c : list R) (i : nat) : R := (row c i - psum d c i / wsum d i)%R.
Lemma gap_S d c i : (0 <= d)%R -> gap d c (S i) = (d * wsum d i / (1 + d * wsum d i) * (row c (S i) - row c i + gap d c i))%R.
Proof.
  intros Hd. unfold gap. rewrite psum_S, wsum_S. pose proof (wsum_pos d i Hd). assert (0 <= d * wsum d i)%R by (apply Rmult_le_pos; lra). field. split; lra.
Qed.
Lemma lambda_mono s t : (0 <= s <= t)%R -> (0 <= s / (1 + s) <= t / (1 + t))%R.
Proof.
  intros H. split; [apply Rmult_le_pos; [lra|apply Rlt_le, Rinv_0_lt_compat; lra]|].
  assert (E : (t / (1 + t) - s / (1 + s) = (t - s) / ((1 + t) * (1 + s)))%R) by (field; lra).
  assert (0 <= (t - s) / ((1 + t) * (1 + s)))%R; [|lra]. apply Rmult_le_pos; [lra|]. apply Rlt_le, Rinv_0_lt_compat, Rmult_lt_0_compat; lra.
Qed.
Lemma lambda_strict s t : (0 <= s < t)%R -> (s / (1 + s) < t / (1 + t))%R.
Proof.
  intros H. assert (E : (t / (1 + t) - s / (1 + s) = (t - s) / ((1 + t) * (1 + s)))%R) by (field; lra).
  assert (0 < (t - s) / ((1 + t) * (1 + s)))%R; [|lra]. apply Rdiv_lt_0_compat; [lra|]. apply Rmult_lt_0_compat; lra.
Qed.
Lemma dw_mono a b i : (0 <= a <= b)%R -> (0 <= a * wsum a i <= b * wsum b i)%R.
Proof. intros H. pose proof (wsum_mono a b i H). pose proof (wsum_pos a i ltac:(lra)). split; [apply Rmult_le_pos; lra|apply Rmult_le_compat; lra]. Qed.
Lemma gap_up a b c i : (0 <= a <= b)%R -> never_falls (row c) (S i) -> (0 <= gap a c i <= gap b c i)%R.
Proof.
  intros H. induction i as [|i IH]; intros U; [unfold gap, psum, wsum; cbn; lra|].
  destruct IH as (G1 & G2); [intros p q Hpq; apply U; lia|]. rewrite !gap_S by lra. pose proof (U i (S i) ltac:(lia)) as Hx.
  pose proof (lambda_mono _ _ (dw_mono a b i H)) as (L1 & L2). split; [apply Rmult_le_pos; lra|apply Rmult_le_compat; lra].
Qed.
Lemma gap_up_strict a b c i : (0 <= a < b)%R -> always_rises (row c) (S (S i)) -> (gap a c (S i) < gap b c (S i))%R.
Proof.
  intros H U. assert (W : never_falls (row c) (S i)).
  { intros p q Hpq. destruct (Nat.eq_dec p q) as [->|]; [lra|]. apply Rlt_le, U. lia. }
  destruct (gap_up a b c i ltac:(lra) W) as (G1 & G2). rewrite !gap_S by lra. pose proof (U i (S i) ltac:(lia)) as Hx.
  assert (L0 : (0 <= a * wsum a i < b * wsum b i)%R).
  { pose proof (wsum_mono a b i ltac:(lra)). pose proof (wsum_pos a i ltac:(lra)). split; [apply Rmult_le_pos; lra|].
    apply Rle_lt_trans with (a * wsum b i)%R; [apply Rmult_le_compat_l; lra|apply Rmult_lt_compat_r; lra]. }
  pose proof (lambda_strict _ _ L0) as L1. assert (L2 : (0 <= a * wsum a i / (1 + a * wsum a i))%R) by (apply (lambda_mono _ (a * wsum a i)); lra).
  apply Rle_lt_trans with (a * wsum a i / (1 + a * wsum a i) * (row c (S i) - row c i + gap b c i))%R; [apply Rmult_le_compat_l; lra|apply Rmult_lt_compat_r; lra].
Qed.
Lemma decay_mono s t : (1 <= s <= t)%R -> (0 <= decay s <= decay t)%R.
Proof.
  intros H. pose proof (decay_range s ltac:(lra)). split; [lra|]. unfold decay. assert (2 / (t + 1) <= 2 / (s + 1))%R; [|lra]. apply Rmult_le_compat_l; [lra|]. apply Rinv_le_contravar; lra.
Qed.
Lemma decay_strict s t : (1 <= s < t)%R -> (0 <= decay s < decay t)%R.
Proof.
  intros H. pose proof (decay_range s ltac:(lra)). split; [lra|]. unfold decay. assert (2 / (t + 1) < 2 / (s + 1))%R; [|lra]. apply Rmult_lt_compat_l; [lra|]. apply Rinv_lt_contravar; [apply Rmult_lt_0_compat|]; lra.
Qed.
Lemma ewma_gap span c i : ewma span c i = (row c i - gap (decay span) c i)%R.
Proof. unfold ewma, gap, psum, wsum. lra. Qed.
Lemma ewma_up fast slow c i : (1 <= fast <= slow)%R -> never_falls (row c) (S i) -> (ewma slow c i <= ewma fast c i <= row c i)%R.
Proof. intros H U. rewrite !ewma_gap. pose proof (gap_up _ _ c i (decay_mono _ _ H) U). lra. Qed.
Lemma ewma_up_strict fast slow c i : (1 <= fast < slow)%R -> always_rises (row c) (S (S i)) -> (ewma slow c (S i) < ewma fast c (S i))%R.
Proof. intros H U. rewrite !ewma_gap. pose proof (gap_up_strict _ _ c i (decay_strict _ _ H) U). lra. Qed.
Lemma row_opp c i : row (map Ropp c) i = (- row c i)%R.
Proof. unfold row. replace 0%R with (Ropp 0) at 1 by lra. apply map_nth. Qed.
Lemma psum_opp d c i : psum d (map Ropp c) i = (- psum d c i)%R.
Proof.
  unfold psum. generalize (seq 0 (i + 1)). induction l as [|j l IH]; cbn [map]; [cbn; lra|]. rewrite !rsum_cons, IH, row_opp. lra.
Qed.
Lemma ewma_opp span c i : ewma span (map Ropp c) i = (- ewma span c i)%R.
Proof. rewrite !ewma_gap. unfold gap. rewrite row_opp, psum_opp. lra. Qed.
Lemma ewma_down fast slow c i : (1 <= fast <= slow)%R -> never_rises (row c) (S i) -> (row c i <= ewma fast c i <= ewma slow c i)%R.
Proof. intros H U. assert (V : never_falls (row (map Ropp c)) (S i)) by (intros p q Hpq; rewrite !row_opp; specialize (U p q Hpq); lra). pose proof (ewma_up fast slow _ i H V) as K. rewrite !ewma_opp, row_opp in K. lra. Qed.
Lemma ewma_down_strict fast slow c i : (1 <= fast < slow)%R -> always_falls (row c) (S (S i)) -> (ewma fast c (S i) < ewma slow c (S i))%R.
Proof. intros H U. assert (V : always_rises (row (map Ropp c)) (S (S i))) by (intros p q Hpq; rewrite !row_opp; specialize (U p q Hpq); lra). pose proof (ewma_up_strict fast slow _ i H V) as K. rewrite !ewma_opp in K. lra. Qed.

Lemma ewma_direction X fast slow normalised name c : (1 <= fast <= slow)%R -> has_column X name c -> Forall (fun x => 0 <= x)%R c ->
  exists out, ewma_difference fast slow normalised name X = Ok out /\ List.length out = List.length c /\
  (never_falls (row c) (List.length c) -> forall i x, nth_error out i = Some x -> exists v, x = Fin v /\ (0 <= v)%R) /\
  (never_rises (row c) (List.length c) -> forall i x, nth_error out i = Some x -> exists v, x = Fin v /\ (v <= 0)%R) /\
  ((fast < slow)%R -> always_rises (row c) (List.length c) -> forall i x, 1 <= i -> nth_error out i = Some x -> exists v, x = Fin v /\ (0 < v)%R) /\
  ((fast < slow)%R -> always_falls (row c) (List.length c) -> forall i x, 1 <= i -> nth_error out i = Some x -> exists v, x = Fin v /\ (v < 0)%R).
Proof.
  intros H Hc Hp. destruct (ewma_formula X fast slow name c ltac:(lra) ltac:(lra) Hc) as (F1 & F2). specialize (F2 Hp).
  assert (F : exists out g, ewma_difference fast slow normalised name X = Ok out /\ values_from 0 (List.length c) (fun i => (ewma fast c i - ewma slow c i) / g i)%R out /\ (forall i, i < List.length c -> (0 < g i)%R)).
  { destruct normalised.
    - destruct F2 as (out & E & V). exists out, (fun i => ewma fast c i + 1)%R. split; [exact E|]. split; [exact V|]. intros i Hi.
      assert (Hmax : exists b, Forall (fun x => 0 <= x <= b)%R c).
      { clear -Hp. induction c as [|x c IH]; [exists 0%R; constructor|]. inversion Hp as [|? ? H1 H2]; subst. destruct (IH H2) as (b & Hb). exists (Rmax x b). constructor; [split; [exact H1|apply Rmax_l]|].
        apply Forall_forall. intros y Hy. rewrite Forall_forall in Hb. specialize (Hb y Hy). pose proof (Rmax_r x b). lra. }
      destruct Hmax as (b & Hb). pose proof (ewma_bounds fast c i 0 b ltac:(lra) Hi Hb). lra.
    - destruct F1 as (out & E & V1 & V2). exists out, (fun _ => 1%R). split; [exact E|]. split; [|intros; lra]. split; [exact V1|]. intros i Hi. rewrite (V2 i Hi). destruct (Nat.ltb i 0); [reflexivity|]. do 2 f_equal. lra. }
  destruct F as (out & g & E & (V1 & V2) & G). exists out. split; [exact E|]. split; [exact V1|].
  assert (N : forall i x, nth_error out i = Some x -> i < List.length c /\ x = Fin ((ewma fast c i - ewma slow c i) / g i)%R).
  { intros i x Hx. assert (Hi : i < List.length c) by (rewrite <- V1; apply nth_error_Some; congruence). split; [exact Hi|]. rewrite (V2 i Hi) in Hx. injection Hx as <-. reflexivity. }
  split; [|split; [|split]].
  - intros U i x Hx. destruct (N i x Hx) as (Hi & ->). eexists; split; [reflexivity|]. pose proof (ewma_up fast slow c i H ltac:(intros p q Hpq; apply U; lia)).
    apply Rmult_le_pos; [lra|]. apply Rlt_le, Rinv_0_lt_compat. now apply G.
  - intros U i x Hx. destruct (N i x Hx) as (Hi & ->). eexists; split; [reflexivity|]. pose proof (ewma_down fast slow c i H ltac:(intros p q Hpq; apply U; lia)).
    assert (0 <= (ewma slow c i - ewma fast c i) / g i)%R; [|unfold Rdiv in *; lra]. apply Rmult_le_pos; [lra|]. apply Rlt_le, Rinv_0_lt_compat. now apply G.
  - intros H' U i x Hi1 Hx. destruct (N i x Hx) as (Hi & ->). eexists; split; [reflexivity|]. destruct i as [|i]; [lia|]. pose proof (ewma_up_strict fast slow c i ltac:(lra) ltac:(intros p q Hpq; apply U; lia)).
    apply Rdiv_lt_0_compat; [lra|now apply G].
  - intros H' U i x Hi1 Hx. destruct (N i x Hx) as (Hi & ->). eexists; split; [reflexivity|]. destruct i as [|i]; [lia|]. pose proof (ewma_down_strict fast slow c i ltac:(lra) ltac:(intros p q Hpq; apply U; lia)).
    assert (0 < (ewma slow c (S i) - ewma fast c (S i)) / g (S i))%R; [|unfold Rdiv in *; lra]. apply Rdiv_lt_0_compat; [lra|now apply G].
Qed.

(** ** Moving averages *)
Definition avg (w : nat) (g : nat -> R) (i : nat) : R := average (trailing w g i).
Lemma trailing_S w g i : S w <= i + 1 -> trailing (S w) g i = g (i - w) :: trailing w g i.
Proof.
  intros H. unfold trailing, rows_up_to. cbn [seq map]. f_equal; [f_equal; lia|]. rewrite <- seq_shift, !map_map. apply map_ext_in. intros j _. f_equal. lia.
Qed.
Lemma avg_S w g i : 1 <= w -> S w <= i + 1 -> (INR w + 1 <> 0)%R /\ avg (S w) g i = ((g (i - w)%nat + INR w * avg w g i) / (INR w + 1))%R.
Proof.
  intros H1 H2. assert (P : (0 < INR w)%R) by (apply lt_0_INR; lia). split; [lra|]. unfold avg, average. rewrite trailing_S by exact H2. cbn [List.length]. rewrite rsum_cons, S_INR, trailing_length. field. lra.
Qed.
Lemma trailing_in w g i x : w <= i + 1 -> In x (trailing w g i) -> exists j, i + 1 - w <= j <= i /\ x = g j.
Proof. intros Hw H. unfold trailing, rows_up_to in H. rewrite map_map in H. apply in_map_iff in H. destruct H as (j & <- & Hj). apply in_seq in Hj. eexists. split; [|reflexivity]. lia. Qed.
Lemma average_ge v a : v <> [] -> (forall x, In x v -> a <= x)%R -> (a <= average v)%R.
Proof.
  intros Hv H. unfold average. assert (P : (0 < INR (List.length v))%R) by (apply lt_0_INR; destruct v; [congruence|cbn; lia]).
  apply (Rmult_le_reg_r (INR (List.length v))); [exact P|]. unfold Rdiv. rewrite Rmult_assoc, Rinv_l, Rmult_1_r by lra. clear Hv P.
  induction v as [|x v IH]; [cbn; lra|]. cbn [List.length]. rewrite S_INR, rsum_cons. pose proof (H x ltac:(now left)). pose proof (IH ltac:(intros; apply H; now right)). lra.
Qed.
Lemma average_gt v a : v <> [] -> (forall x, In x v -> a < x)%R -> (a < average v)%R.
Proof.
  intros Hv H. unfold average. assert (P : (0 < INR (List.length v))%R) by (apply lt_0_INR; destruct v; [congruence|cbn; lia]).
  apply (Rmult_lt_reg_r (INR (List.length v))); [exact P|]. unfold Rdiv. rewrite Rmult_assoc, Rinv_l, Rmult_1_r by lra. clear P.
  assert (K : forall u, (forall x, In x u -> In x v) -> (a * INR (List.length u) <= rsum u /\ (u <> [] -> a * INR (List.length u) < rsum u))%R).
  { induction u as [|x u IH]; intros Hu; [cbn; split; [lra|congruence]|]. destruct IH as (IH & _); [intros; apply Hu; now right|]. pose proof (H x (Hu x (or_introl eq_refl))).
    cbn [List.length]. rewrite S_INR, rsum_cons. split; [lra|intros _; lra]. }
  now apply K.
Qed.
Lemma trailing_ne w g i : 1 <= w -> trailing w g i <> [].
Proof. intros H E. pose proof (trailing_length w g i). rewrite E in H0. cbn in H0. lia. Qed.
Lemma avg_step_le w g i : 1 <= w -> S w <= i + 1 -> never_falls g (S i) -> (avg (S w) g i <= avg w g i)%R.
Proof.
  intros H1 H2 U. destruct (avg_S w g i H1 H2) as (_ & ->). assert (G : (g (i - w)%nat <= avg w g i)%R).
  { apply average_ge; [now apply trailing_ne|]. intros x Hx. destruct (trailing_in w g i x ltac:(lia) Hx) as (j & Hj & ->). apply U. lia. }
  assert (P : (0 < INR w)%R) by (apply lt_0_INR; lia). apply (Rmult_le_reg_r (INR w + 1)); [lra|]. unfold Rdiv. rewrite Rmult_assoc, Rinv_l by lra. lra.
Qed.
Lemma avg_step_lt w g i : 1 <= w -> S w <= i + 1 -> always_rises g (S i) -> (avg (S w) g i < avg w g i)%R.
Proof.
  intros H1 H2 U. destruct (avg_S w g i H1 H2) as (_ & ->). assert (G : (g (i - w)%nat < avg w g i)%R).
  { apply average_gt; [now apply trailing_ne|]. intros x Hx. destruct (trailing_in w g i x ltac:(lia) Hx) as (j & Hj & ->). apply U. lia. }
  assert (P : (0 < INR w)%R) by (apply lt_0_INR; lia). apply (Rmult_lt_reg_r (INR w + 1)); [lra|]. unfold Rdiv. rewrite Rmult_assoc, Rinv_l by lra. lra.
Qed.
Lemma avg_le f s g i : 1 <= f <= s -> s <= i + 1 -> never_falls g (S i) -> (avg s g i <= avg f g i)%R.
Proof.
  intros (H1 & H2) H3 U. revert H3. induction H2 as [|s H2 IH]; intros H3; [lra|]. pose proof (IH ltac:(lia)). pose proof (avg_step_le s g i ltac:(lia) ltac:(lia) U). lra.
Qed.
Lemma avg_lt f s g i : 1 <= f < s -> s <= i + 1 -> always_rises g (S i) -> (avg s g i < avg f g i)%R.
Proof.
  intros (H1 & H2) H3 U. revert H3. induction H2 as [|s H2 IH]; intros H3; [now apply avg_step_lt|]. pose proof (IH ltac:(lia)). pose proof (avg_step_lt s g i ltac:(lia) ltac:(lia) U). lra.
Qed.
Lemma all_numbers_fin v : all_numbers (map Fin v) = Some v.
Proof. induction v as [|x v IH]; [reflexivity|]. cbn [map all_numbers]. now rewrite IH. Qed.
Lemma moving_average_fin w c i : i < List.length c -> moving_average w (map Fin c) i = if Nat.ltb (i + 1) w then None else Some (avg w (row c) i).
Proof.
  intros Hi. unfold moving_average, last_values. destruct (Nat.ltb_spec (i + 1) w) as [|L]; [reflexivity|].
  assert (E : map (fun j => nth (i + 1 - w + j) (map Fin c) NaN) (seq 0 w) = map Fin (trailing w (row c) i)).
  { unfold trailing, rows_up_to. rewrite !map_map. apply map_ext_in. intros j Hj. apply in_seq in Hj. unfold row. rewrite (nth_indep _ NaN (Fin 0%R)) by (rewrite map_length; lia). apply (map_nth Fin). }
  rewrite E, all_numbers_fin. reflexivity.
Qed.
