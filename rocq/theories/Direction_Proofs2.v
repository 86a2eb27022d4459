(** Proofs: barrier labels when prices stay on one side of the event's price. *)
From Coq Require Import Classical_Prop Reals Lra Lia ZArith String Permutation.
From Verif Require Import PreludeFacts Series Boot_Proofs Label_Model Label_Spec Label_Proofs Label_Proofs2 Label_Proofs3 Label_Proofs4 Direction_Spec.
Local Open Scope nat_scope.

Lemma altb_iff (x y : R) : altb x y = true <-> (x < y)%R.
Proof. cbn. destruct (Rlt_dec x y); split; auto; discriminate. Qed.
Lemma ediv_pos (c c0 : R) : c0 <> 0%R -> ediv (Fin c) (Fin c0) = Fin (c / c0)%R.
Proof. intros H. unfold ediv. cbn. destruct (Req_EM_T c0 0); [contradiction|reflexivity]. Qed.
Lemma ret_eq (c c0 : R) : (0 < c0)%R -> esub (ediv (Fin c) (Fin c0)) (Fin a1) = Fin (c / c0 - 1)%R.
Proof. intros H. rewrite ediv_pos by lra. reflexivity. Qed.
Lemma ratio_le (c c0 : R) : (0 < c0)%R -> (c0 <= c)%R <-> (0 <= c / c0 - 1)%R.
Proof.
  intros H. split; intros K.
  - assert (1 <= c / c0)%R; [|lra]. apply (Rmult_le_reg_r c0); [lra|]. unfold Rdiv. rewrite Rmult_assoc, Rinv_l; lra.
  - assert (Q : (1 * c0 <= c / c0 * c0)%R) by (apply Rmult_le_compat_r; lra). unfold Rdiv in Q. rewrite Rmult_assoc, Rinv_l in Q; lra.
Qed.
Lemma ratio_ge (c c0 : R) : (0 < c0)%R -> (c <= c0)%R <-> (c / c0 - 1 <= 0)%R.
Proof.
  intros H. split; intros K.
  - assert (c / c0 <= 1)%R; [|lra]. apply (Rmult_le_reg_r c0); [lra|]. unfold Rdiv. rewrite Rmult_assoc, Rinv_l; lra.
  - assert (Q : (c / c0 * c0 <= 1 * c0)%R) by (apply Rmult_le_compat_r; lra). unfold Rdiv in Q. rewrite Rmult_assoc, Rinv_l in Q; lra.
Qed.
Lemma sign_label_fin (r : R) : sign_label (Fin r) = Fin (if Rlt_dec r 0 then -1 else if Rlt_dec 0 r then 1 else 0)%R.
Proof. unfold sign_label. cbn. destruct (Rlt_dec r 0); [f_equal; lra|]. destruct (Rlt_dec 0 r); reflexivity. Qed.

Section Labels.
  Variables (daily_vol : list Z -> list (ext R) -> result (list (Z * ext R))) (order : list nat) (cfg : config R) (y : frame R) (close : list (ext R)) (out : list (out_row R))
            (i : nat) (o : out_row R) (c0 v : R) (t : Z).
  Hypotheses (Hv : valid_times (f_index y)) (Hw : well_formed y) (Ho : Permutation order (seq 0 (List.length (f_index y)))) (Hn : (0 <= n_expiration_bars cfg)%Z)
             (Hc : column y (close_column cfg) = Some close) (Hs : column y "side"%string = None) (Hm : metalabeling cfg = false)
             (E : transform daily_vol order cfg y = Ok out) (Hi : nth_error out i = Some o) (Hvol : o_vol o = Fin v) (Hvp : (0 <= v)%R) (Ht : o_end o = Some t)
             (H0 : nth_error close i = Some (Fin c0)) (Hp : (0 < c0)%R).
  Let side_one : event_side y i (Fin a1).
  Proof. unfold event_side. rewrite Hs. reflexivity. Qed.
  Lemma end_price : exists p x, i <= p /\ nth_error (f_index y) p = Some t /\ nth_error close p = Some x /\
    o_return o = esub (ediv x (Fin c0)) (Fin a1) /\
    let hit := touched (f_index y) close i (n_expiration_bars cfg) (profit_taking_factor cfg) (stop_loss_factor cfg) (o_vol o) (Fin a1) in
    (expiration_label cfg = true -> ~ hit -> o_label o = Fin 0%R) /\ (expiration_label cfg = false \/ hit -> o_label o = sign_label (o_return o)).
  Proof.
    destruct (c28 daily_vol order cfg y close out i o (Fin a1) t Hv Hw Ho Hc side_one E Hi Ht) as (p & c' & c & P1 & P2 & P3 & P4). cbv zeta in P4. rewrite Hm in P4.
    rewrite H0 in P2. injection P2 as <-. destruct P4 as (P4 & P5 & P6). exists p, c. assert (Hip : i <= p).
    { assert (Li : i < List.length (f_index y)). { rewrite <- (Hw _ _ Hc). apply nth_error_Some. congruence. }
      destruct (nth_error (f_index y) i) as [t0|] eqn:Et0; [|apply nth_error_None in Et0; lia].
      destruct (c27_bounds daily_vol order cfg y out i o t t0 Hv Hw Ho Hn E Hi Ht Et0) as (_ & Hle & _).
      destruct (le_lt_dec i p) as [|L]; [assumption|]. exfalso. pose proof (incZ_nth_lt (f_index y) (proj1 Hv) p i t t0 P1 Et0 L). lia. }
    rewrite <- P4 in P6. repeat split; assumption.
  Qed.
  Lemma labels_up : stays_above close i c0 ->
    exists r, o_return o = Fin r /\ (0 <= r)%R /\ (o_label o = Fin 0%R \/ o_label o = Fin 1%R) /\
      (expiration_label cfg = false -> (o_label o = Fin 1%R <-> (0 < r)%R)) /\
      (forall e u, search_end (f_index y) (n_expiration_bars cfg) i e -> ~ touch (f_index y) close i e (Fin a1) (below_stop (stop_loss_factor cfg) (Fin v)) u) /\
      (forall e, search_end (f_index y) (n_expiration_bars cfg) i e -> touch (f_index y) close i e (Fin a1) (above_profit (profit_taking_factor cfg) (Fin v)) t -> o_label o = Fin 1%R).
  Proof.
    intros U. destruct end_price as (p & x & Lp & P1 & P2 & P3 & P4). cbv zeta in P4. destruct P4 as (P4 & P5).
    destruct (U p x Lp P2) as (c & -> & Hle). rewrite ret_eq in P3 by exact Hp. rewrite P3 in P5. exists (c / c0 - 1)%R.
    pose proof (proj1 (ratio_le c c0 Hp) Hle) as R0. rewrite sign_label_fin in P5.
    assert (Lab : o_label o = Fin 0%R \/ o_label o = Fin 1%R /\ (0 < c / c0 - 1)%R).
    { destruct (expiration_label cfg) eqn:X.
      - destruct (classic (touched (f_index y) close i (n_expiration_bars cfg) (profit_taking_factor cfg) (stop_loss_factor cfg) (o_vol o) (Fin a1))) as [H|H]; [|left; auto].
        rewrite (P5 (or_intror H)). destruct (Rlt_dec (c / c0 - 1) 0); [lra|]. destruct (Rlt_dec 0 (c / c0 - 1)); [right; auto|left; auto].
      - rewrite (P5 (or_introl eq_refl)). destruct (Rlt_dec (c / c0 - 1) 0); [lra|]. destruct (Rlt_dec 0 (c / c0 - 1)); [right; auto|left; auto]. }
    split; [exact P3|]. split; [exact R0|]. split; [tauto|]. split; [|split].
    - intros X. rewrite (P5 (or_introl X)). destruct (Rlt_dec (c / c0 - 1) 0); [lra|]. destruct (Rlt_dec 0 (c / c0 - 1)); split; auto; intros K; [injection K as K; lra|lra].
    - intros e u He (t0 & c0' & k & ck & K1 & K2 & K3 & K4 & K5 & K6). rewrite H0 in K2. injection K2 as <-. apply andb_true_iff in K6. destruct K6 as (K6 & K7). apply altb_iff in K6.
      assert (Lk : i <= k). { destruct (le_lt_dec i k) as [|L]; [assumption|]. pose proof (incZ_nth_lt (f_index y) (proj1 Hv) k i u t0 K3 K1 L). lia. }
      destruct (U k ck Lk K4) as (d & -> & Hd). unfold side_return in K7. rewrite ret_eq in K7 by exact Hp. cbn in K7. match type of K7 with context[Rlt_dec ?a ?b] => destruct (Rlt_dec a b) as [K|] end; [|discriminate K7].
      pose proof (proj1 (ratio_le d c0 Hp) Hd). assert (0 <= stop_loss_factor cfg * v)%R by (apply Rmult_le_pos; cbn in K6; lra). lra.
    - intros e He T. assert (Hit : touched (f_index y) close i (n_expiration_bars cfg) (profit_taking_factor cfg) (stop_loss_factor cfg) (o_vol o) (Fin a1)).
      { exists e, t. rewrite Hvol. auto. }
      rewrite (P5 (or_intror Hit)). destruct T as (t0 & c0' & k & ck & K1 & K2 & K3 & K4 & K5 & K6). rewrite H0 in K2. injection K2 as <-. apply andb_true_iff in K6. destruct K6 as (K6 & K7). apply altb_iff in K6.
      assert (k = p). { apply (proj1 (NoDup_nth_error _) (increasingZ_NoDup _ (proj1 Hv))); [apply nth_error_Some; congruence|congruence]. } subst k.
      rewrite P2 in K4. injection K4 as <-. unfold side_return in K7. rewrite ret_eq in K7 by exact Hp. cbn in K7. match type of K7 with context[Rlt_dec ?a ?b] => destruct (Rlt_dec a b) as [K|] end; [|discriminate K7].
      assert (0 <= profit_taking_factor cfg * v)%R by (apply Rmult_le_pos; cbn in K6; lra). destruct (Rlt_dec (c / c0 - 1) 0); [lra|]. destruct (Rlt_dec 0 (c / c0 - 1)); [reflexivity|]. exfalso. cbn in K. lra.
  Qed.
  Lemma labels_down : stays_below close i c0 ->
    exists r, o_return o = Fin r /\ (r <= 0)%R /\ (o_label o = Fin 0%R \/ o_label o = Fin (-1)%R) /\
      (expiration_label cfg = false -> (o_label o = Fin (-1)%R <-> (r < 0)%R)) /\
      (forall e u, search_end (f_index y) (n_expiration_bars cfg) i e -> ~ touch (f_index y) close i e (Fin a1) (above_profit (profit_taking_factor cfg) (Fin v)) u) /\
      (forall e, search_end (f_index y) (n_expiration_bars cfg) i e -> touch (f_index y) close i e (Fin a1) (below_stop (stop_loss_factor cfg) (Fin v)) t -> o_label o = Fin (-1)%R).
  Proof.
    intros U. destruct end_price as (p & x & Lp & P1 & P2 & P3 & P4). cbv zeta in P4. destruct P4 as (P4 & P5).
    destruct (U p x Lp P2) as (c & -> & _ & Hle). rewrite ret_eq in P3 by exact Hp. rewrite P3 in P5. exists (c / c0 - 1)%R.
    pose proof (proj1 (ratio_ge c c0 Hp) Hle) as R0. rewrite sign_label_fin in P5.
    assert (Lab : o_label o = Fin 0%R \/ o_label o = Fin (-1)%R /\ (c / c0 - 1 < 0)%R).
    { destruct (expiration_label cfg) eqn:X.
      - destruct (classic (touched (f_index y) close i (n_expiration_bars cfg) (profit_taking_factor cfg) (stop_loss_factor cfg) (o_vol o) (Fin a1))) as [H|H]; [|left; auto].
        rewrite (P5 (or_intror H)). destruct (Rlt_dec (c / c0 - 1) 0); [right; auto|]. destruct (Rlt_dec 0 (c / c0 - 1)); [lra|left; auto].
      - rewrite (P5 (or_introl eq_refl)). destruct (Rlt_dec (c / c0 - 1) 0); [right; auto|]. destruct (Rlt_dec 0 (c / c0 - 1)); [lra|left; auto]. }
    split; [exact P3|]. split; [exact R0|]. split; [tauto|]. split; [|split].
    - intros X. rewrite (P5 (or_introl X)). destruct (Rlt_dec (c / c0 - 1) 0); [tauto|]. destruct (Rlt_dec 0 (c / c0 - 1)); split; auto; intros K; try lra; injection K as K; lra.
    - intros e u He (t0 & c0' & k & ck & K1 & K2 & K3 & K4 & K5 & K6). rewrite H0 in K2. injection K2 as <-. apply andb_true_iff in K6. destruct K6 as (K6 & K7). apply altb_iff in K6.
      assert (Lk : i <= k). { destruct (le_lt_dec i k) as [|L]; [assumption|]. pose proof (incZ_nth_lt (f_index y) (proj1 Hv) k i u t0 K3 K1 L). lia. }
      destruct (U k ck Lk K4) as (d & -> & _ & Hd). unfold side_return in K7. rewrite ret_eq in K7 by exact Hp. cbn in K7. match type of K7 with context[Rlt_dec ?a ?b] => destruct (Rlt_dec a b) as [K|] end; [|discriminate K7].
      pose proof (proj1 (ratio_ge d c0 Hp) Hd). assert (0 <= profit_taking_factor cfg * v)%R by (apply Rmult_le_pos; cbn in K6; lra). lra.
    - intros e He T. assert (Hit : touched (f_index y) close i (n_expiration_bars cfg) (profit_taking_factor cfg) (stop_loss_factor cfg) (o_vol o) (Fin a1)).
      { exists e, t. rewrite Hvol. auto. }
      rewrite (P5 (or_intror Hit)). destruct T as (t0 & c0' & k & ck & K1 & K2 & K3 & K4 & K5 & K6). rewrite H0 in K2. injection K2 as <-. apply andb_true_iff in K6. destruct K6 as (K6 & K7). apply altb_iff in K6.
      assert (k = p). { apply (proj1 (NoDup_nth_error _) (increasingZ_NoDup _ (proj1 Hv))); [apply nth_error_Some; congruence|congruence]. } subst k.
      rewrite P2 in K4. injection K4 as <-. unfold side_return in K7. rewrite ret_eq in K7 by exact Hp. cbn in K7. match type of K7 with context[Rlt_dec ?a ?b] => destruct (Rlt_dec a b) as [K|] end; [|discriminate K7].
      assert (0 <= stop_loss_factor cfg * v)%R by (apply Rmult_le_pos; cbn in K6; lra). destruct (Rlt_dec (c / c0 - 1) 0); [reflexivity|]. exfalso. cbn in K. lra.
  Qed.
End Labels.

(** The volatility of a row is missing or a number that is not negative. *)
From Verif Require Import DailyVol_Model.
Lemma vol_sign span order (cfg : config R) y out i o : valid_times (f_index y) -> well_formed y -> Permutation order (seq 0 (List.length (f_index y))) ->
  transform (get_daily_vol (ewm_std span)) order cfg y = Ok out -> nth_error out i = Some o -> o_vol o = NaN \/ exists v, o_vol o = Fin v /\ (0 <= v)%R.
Proof.
  intros Hv Hw Ho E Hi. destruct (out_row_vol _ _ _ _ _ _ _ Hv Hw Ho E Hi) as (close & vol & Hc & V & Hn & _). unfold row_vols in V.
  destruct (volatility_adjusted cfg).
  - destruct (get_daily_vol (ewm_std span) (f_index y) close) as [v|] eqn:D; [|discriminate]. cbn [bind] in V. injection V as <-. unfold align in Hn. rewrite nth_error_map in Hn.
    destruct (nth_error (f_index y) i) as [t|]; [|discriminate]. cbn [option_map] in Hn. injection Hn as Hn. rewrite <- Hn. destruct (find _ v) as [r|] eqn:F; [|now left]. apply find_some in F. destruct F as (F & _).
    unfold get_daily_vol in D. destruct (daily_returns (f_index y) close) as [rs|]; [|discriminate]. cbn [bind] in D. injection D as <-. destruct r as (u, x). apply in_combine_r in F. cbn [snd].
    unfold ewm_std in F. apply in_map_iff in F. destruct F as (k & <- & _). unfold ewm_std_at. destruct (ewm_obs _ _ k); [now left|]. match goal with |- context[Rlt_dec ?a ?b] => destruct (Rlt_dec a b) end; [|now left].
    right. eexists; split; [reflexivity|apply sqrt_pos].
  - injection V as <-. rewrite nth_error_map in Hn. destruct (nth_error (f_index y) i); [|discriminate]. cbn in Hn. injection Hn as <-. right. exists 1%R. split; [reflexivity|lra].
Qed.
Section Real.
  Variables (span : R) (order : list nat) (cfg : config R) (y : frame R) (close : list (ext R)) (out : list (out_row R)) (i : nat) (o : out_row R) (c0 : R) (t : Z).
  Hypotheses (Hv : valid_times (f_index y)) (Hw : well_formed y) (Ho : Permutation order (seq 0 (List.length (f_index y)))) (Hn : (0 <= n_expiration_bars cfg)%Z)
             (Hc : column y (close_column cfg) = Some close) (Hs : column y "side"%string = None) (Hm : metalabeling cfg = false)
             (E : transform (get_daily_vol (ewm_std span)) order cfg y = Ok out) (Hi : nth_error out i = Some o) (Ht : o_end o = Some t)
             (H0 : nth_error close i = Some (Fin c0)) (Hp : (0 < c0)%R).
  Let vol_fin : exists v, o_vol o = Fin v /\ (0 <= v)%R.
  Proof.
    destruct (vol_sign span order cfg y out i o Hv Hw Ho E Hi) as [K|K]; [|exact K]. destruct (c27_novol _ _ _ _ _ _ _ Hv Hw Ho E Hi ltac:(now rewrite K)) as (A & _). congruence.
  Qed.
  Lemma real_up : stays_above close i c0 ->
    exists r, o_return o = Fin r /\ (0 <= r)%R /\ (o_label o = Fin 0%R \/ o_label o = Fin 1%R) /\
      (expiration_label cfg = false -> (o_label o = Fin 1%R <-> (0 < r)%R)) /\
      (forall e u, search_end (f_index y) (n_expiration_bars cfg) i e -> ~ touch (f_index y) close i e (Fin a1) (below_stop (stop_loss_factor cfg) (o_vol o)) u) /\
      (forall e, search_end (f_index y) (n_expiration_bars cfg) i e -> touch (f_index y) close i e (Fin a1) (above_profit (profit_taking_factor cfg) (o_vol o)) t -> o_label o = Fin 1%R).
  Proof. destruct vol_fin as (v & Ev & Lv). rewrite Ev. eapply labels_up; eauto. Qed.
  Lemma real_down : stays_below close i c0 ->
    exists r, o_return o = Fin r /\ (r <= 0)%R /\ (o_label o = Fin 0%R \/ o_label o = Fin (-1)%R) /\
      (expiration_label cfg = false -> (o_label o = Fin (-1)%R <-> (r < 0)%R)) /\
      (forall e u, search_end (f_index y) (n_expiration_bars cfg) i e -> ~ touch (f_index y) close i e (Fin a1) (above_profit (profit_taking_factor cfg) (o_vol o)) u) /\
      (forall e, search_end (f_index y) (n_expiration_bars cfg) i e -> touch (f_index y) close i e (Fin a1) (below_stop (stop_loss_factor cfg) (o_vol o)) t -> o_label o = Fin (-1)%R).
  Proof. destruct vol_fin as (v & Ev & Lv). rewrite Ev. eapply labels_down; eauto. Qed.
End Real.
