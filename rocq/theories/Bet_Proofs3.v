(** Proofs for the bet-size transformer. *)
From Coq Require Import Reals Lra Lia ZArith String.
From Verif Require Import PreludeFacts Series Weights_Model Weights_Spec Bet_Model Bet_Spec Bet_Proofs Bet_Proofs2.
Local Open Scope nat_scope.

Lemma eabs_R (v : R) : eabs (Fin v) = Fin (Rabs v).
Proof. cbn [eabs altb Arith_R a0 aopp]. unfold Rabs. destruct (Rlt_dec v 0), (Rcase_abs v); f_equal; lra. Qed.

Lemma eleb_R (a b : R) : eleb (Fin a) (Fin b) = true <-> (a <= b)%R.
Proof.
  unfold eleb. cbn [eltb eeqb altb aeqb Arith_R]. destruct (Rlt_dec a b), (Req_EM_T a b); cbn [orb]; split; intros; auto; try lra; discriminate.
Qed.

Lemma checks_pass (l : list (Z * R)) : (forall p, In p l -> (0 <= snd p <= 1)%R) ->
  forall signal, signal = map (fun p => (fst p, Fin (snd p))) l ->
  (do _ <- raise_if (negb (forallb (fun p => eleb (Fin (-1)%R) (snd p)) signal)) AssertionError ;;
   do _ <- raise_if (negb (forallb (fun p => eleb (snd p) (Fin 1%R)) signal)) AssertionError ;;
   Ok signal) = Ok signal.
Proof.
  intros H signal ->.
  assert (forallb (fun p : Z * ext R => eleb (Fin (-1)%R) (snd p)) (map (fun p => (fst p, Fin (snd p))) l) = true) as ->.
  { apply forallb_forall. intros p Hp. apply in_map_iff in Hp as (q & <- & Hq). cbn [snd]. apply eleb_R. specialize (H q Hq). lra. }
  assert (forallb (fun p : Z * ext R => eleb (snd p) (Fin 1%R)) (map (fun p => (fst p, Fin (snd p))) l) = true) as ->.
  { apply forallb_forall. intros p Hp. apply in_map_iff in Hp as (q & <- & Hq). cbn [snd]. apply eleb_R. specialize (H q Hq). lra. }
  reflexivity.
Qed.

Lemma bet_bound cdf n meta r : cdf_ok cdf -> good_row r -> (Rabs (bet_of cdf n meta r) <= 1)%R.
Proof.
  intros Hc (Hp & Hd & Hs). unfold bet_of. rewrite !Rabs_mult.
  pose proof (confidence_range cdf Hc n (r_prob r)) as Hr.
  assert (Rabs (confidence cdf n (r_prob r)) <= 1)%R by (apply Rabs_le; lra).
  assert (Hone : forall v, sign_value v -> (0 <= Rabs v <= 1)%R).
  { intros v [->|[->| ->]]; unfold Rabs; destruct (Rcase_abs _); lra. }
  pose proof (Hone _ Hd). pose proof (Rabs_pos (confidence cdf n (r_prob r))).
  assert (0 <= Rabs (if meta then r_side r else 1) <= 1)%R by (destruct meta; [now apply Hone|rewrite Rabs_R1; lra]).
  set (s1 := Rabs (if meta then r_side r else 1)) in *. clearbody s1. apply Rle_trans with (1 * 1 * 1)%R; [|lra]. apply Rmult_le_compat; try lra; [apply Rmult_le_pos; lra|apply Rmult_le_compat; lra].
Qed.

Section Transform.
  Variable cdf : R -> R.
  Hypothesis Hcdf : cdf_ok cdf.
  Variable c : bet_cfg.
  Hypothesis Hn : 2 <= num_classes c.
  Variable rows : list input_row.
  Hypothesis Hrows : Forall good_row rows.

  Lemma known_sides : forallb known_side (map brow_of rows) = true.
  Proof.
    apply forallb_forall. intros b Hb. apply in_map_iff in Hb as (r & <- & Hr). rewrite Forall_forall in Hrows. destruct (Hrows r Hr) as (_ & _ & Hs).
    unfold known_side. cbn [brow_of b_side eeqb aeqb Arith_R].
    destruct Hs as [->|[->| ->]]; [destruct (Req_EM_T 1 1); [reflexivity|lra]| |].
    - destruct (Req_EM_T (-1) (-1)); [|lra]. now rewrite orb_true_r.
    - destruct (Req_EM_T 0 0); [|lra]. now rewrite !orb_true_r.
  Qed.

  Lemma bets_step : (if meta_labeling c then
       do _ <- raise_if (negb (forallb known_side (map brow_of rows))) AssertionError ;;
       Ok (map (fun p => (fst p, emul (snd p) (b_side (fst p)))) (map (fun r => (r, signed_bet cdf (num_classes c) r)) (map brow_of rows)))
     else Ok (map (fun r => (r, signed_bet cdf (num_classes c) r)) (map brow_of rows))) =
     Ok (map (fun r => (brow_of r, Fin (bet_of cdf (num_classes c) (meta_labeling c) r))) rows).
  Proof.
    assert (E : map (fun r => (r, signed_bet cdf (num_classes c) r)) (map brow_of rows) = map (fun r => (brow_of r, Fin (r_pred r * confidence cdf (num_classes c) (r_prob r))%R)) rows).
    { rewrite map_map. apply map_ext_in. intros r Hr. f_equal. apply signed_bet_fin; auto. rewrite Forall_forall in Hrows. now destruct (Hrows r Hr). }
    rewrite E, known_sides. unfold bet_of. destruct (meta_labeling c); cbn [raise_if negb bind].
    - f_equal. rewrite map_map. apply map_ext. intros r. reflexivity.
    - f_equal. apply map_ext. intros r. now rewrite Rmult_1_r.
  Qed.

  Lemma sizes : average_active c = false -> discretise c = false ->
    bet_transform cdf c (frame_of rows) = Ok (map (fun r => (r_time r, Fin (Rabs (bet_of cdf (num_classes c) (meta_labeling c) r)))) rows).
  Proof.
    intros Ha Hd. unfold bet_transform, bet_transform_. cbn [frame_of has_prob has_pred has_side has_end b_rows negb andb raise_if bind].
    destruct (Nat.eqb_spec (num_classes c) 0); [lia|]. cbn [raise_if bind]. cbv zeta. rewrite bets_step. cbn [bind]. rewrite Ha, Hd. cbn [bind].
    rewrite !map_map. cbn [fst snd brow_of b_time].
    set (l := map (fun r => (r_time r, Rabs (bet_of cdf (num_classes c) (meta_labeling c) r))) rows).
    assert (E : map (fun r => (r_time r, eabs (Fin (bet_of cdf (num_classes c) (meta_labeling c) r)))) rows = map (fun p => (fst p, Fin (snd p))) l).
    { unfold l. rewrite map_map. apply map_ext. intros r. cbn [fst snd]. now rewrite eabs_R. }
    rewrite (checks_pass l); [|intros p Hp|exact E].
    - rewrite E. unfold l. now rewrite map_map.
    - apply in_map_iff in Hp as (r & <- & Hr). cbn [snd]. split; [apply Rabs_pos|]. apply bet_bound; auto. rewrite Forall_forall in Hrows. auto.
  Qed.

  Lemma sizes_discretised step : average_active c = false -> discretise c = true -> step_size c = Some step -> (0 < step < 1)%R ->
    bet_transform cdf c (frame_of rows) =
    Ok (map (fun r => (r_time r, eabs (discretise_value step (Fin (bet_of cdf (num_classes c) (meta_labeling c) r))))) rows).
  Proof.
    intros Ha Hd Hst Hs. unfold bet_transform, bet_transform_. cbn [frame_of has_prob has_pred has_side has_end b_rows negb andb raise_if bind].
    destruct (Nat.eqb_spec (num_classes c) 0); [lia|]. cbn [raise_if bind]. cbv zeta. rewrite bets_step. cbn [bind]. rewrite Ha, Hd, Hst. cbn [bind].
    unfold discretise_signal, step_ok. destruct (Rlt_dec 0 step); [|lra]. destruct (Rlt_dec step 1); [|lra]. cbn [negb raise_if bind].
    rewrite !map_map. cbn [fst snd brow_of b_time].
    set (l := map (fun r => (r_time r, Rabs (disc step (bet_of cdf (num_classes c) (meta_labeling c) r)))) rows).
    assert (E : map (fun r => (r_time r, eabs (discretise_value step (Fin (bet_of cdf (num_classes c) (meta_labeling c) r))))) rows = map (fun p => (fst p, Fin (snd p))) l).
    { unfold l. rewrite map_map. apply map_ext. intros rw. cbn [fst snd]. rewrite discretise_fin by lra. now rewrite eabs_R. }
    rewrite (checks_pass l); [reflexivity| |exact E]. intros p Hp. apply in_map_iff in Hp as (rw & <- & Hr). cbn [snd]. split; [apply Rabs_pos|].
    apply Rabs_le. pose proof (disc_range step (bet_of cdf (num_classes c) (meta_labeling c) rw)). lra.
  Qed.

  Lemma sizes_average : average_active c = true -> discretise c = false -> bet_size_column_name c = "bet_size"%string ->
    clean_times (map (position_of cdf (num_classes c) (meta_labeling c)) rows) ->
    exists times, increasingZ times /\
      (forall t, In t times <-> change_point (map (position_of cdf (num_classes c) (meta_labeling c)) rows) t) /\
      bet_transform cdf c (frame_of rows) =
      Ok (map (fun t => (t, Fin (Rabs (mean_active (map (position_of cdf (num_classes c) (meta_labeling c)) rows) t)))) times).
  Proof.
    intros Ha Hd Hname Hc. destruct (c37 _ Hc) as (times & Hi & Ht & E). exists times. split; auto. split; auto.
    unfold bet_transform, bet_transform_. cbn [frame_of has_prob has_pred has_side has_end b_rows negb andb raise_if bind].
    destruct (Nat.eqb_spec (num_classes c) 0); [lia|]. cbn [raise_if bind]. cbv zeta. rewrite bets_step. cbn [bind]. rewrite Ha, Hd, Hname. cbn [negb raise_if bind String.eqb Ascii.eqb Bool.eqb].
    rewrite map_map. cbn [fst snd brow_of b_time b_end].
    replace (map (fun x => {| s_start := r_time x; s_end := r_end x; s_bet := Fin (bet_of cdf (num_classes c) (meta_labeling c) x) |}) rows)
      with (map signal_of (map (position_of cdf (num_classes c) (meta_labeling c)) rows)) by (rewrite map_map; reflexivity).
    rewrite E. set (ps := map (position_of cdf (num_classes c) (meta_labeling c)) rows). rewrite !map_map. cbn [fst snd].
    set (l := map (fun t => (t, Rabs (mean_active ps t))) times).
    assert (E2 : map (fun t => (t, eabs (Fin (mean_active ps t)))) times = map (fun p => (fst p, Fin (snd p))) l).
    { unfold l. rewrite map_map. apply map_ext. intros rw. cbn [fst snd]. now rewrite eabs_R. }
    rewrite (checks_pass l); [|intros p Hp|exact E2].
    - f_equal. apply map_ext. intros t. now rewrite eabs_R.
    - apply in_map_iff in Hp as (t & <- & Hr). cbn [snd]. split; [apply Rabs_pos|]. apply Rabs_le.
      assert (-1 <= mean_active ps t <= 1)%R; [|lra]. apply mean_bound. intros q Hq. apply in_map_iff in Hq as (r & <- & Hr'). apply bet_bound; auto.
      rewrite Forall_forall in Hrows. auto.
  Qed.
End Transform.

(** Any successful run returns sizes in [0, 1]. *)
Lemma range cdf c X out : bet_transform cdf c X = Ok out -> Forall (fun p => exists v, snd p = Fin v /\ (0 <= v <= 1)%R) out.
Proof.
  intros H. unfold bet_transform in H. destruct (bet_transform_ cdf c X) as [signal|] eqn:E; cbn [bind] in H; [|discriminate].
  destruct (forallb (fun p => eleb (Fin (-1)%R) (snd p)) signal) eqn:E1; cbn [negb raise_if bind] in H; [|discriminate].
  destruct (forallb (fun p => eleb (snd p) (Fin 1%R)) signal) eqn:E2; cbn [negb raise_if bind] in H; [|discriminate].
  assert (out = signal) as -> by congruence. clear H.
  unfold bet_transform_ in E. repeat match type of E with (do _ <- ?x ;; _) = Ok _ => destruct x; cbn [bind] in E; [|discriminate] end.
  injection E as <-. rewrite forallb_forall in E1, E2. apply Forall_forall. intros p Hp. specialize (E1 p Hp). specialize (E2 p Hp).
  apply in_map_iff in Hp as (q & <- & Hq). cbn [snd] in *. destruct (snd q) as [v| | |]; try discriminate.
  rewrite eabs_R in *. apply eleb_R in E2. exists (Rabs v). split; auto. split; [apply Rabs_pos|exact E2].
Qed.

(** A row without a size makes the run fail. *)
Lemma nan_fails cdf c X r : has_prob X = true -> has_pred X = true -> 1 <= num_classes c -> meta_labeling c = false -> average_active c = false -> discretise c = false ->
  In r (b_rows X) -> signed_bet cdf (num_classes c) r = NaN -> bet_transform cdf c X = Err AssertionError.
Proof.
  intros H1 H2 Hn Hm Ha Hd Hr Hs. unfold bet_transform, bet_transform_. rewrite H1, H2, Hm, Ha, Hd. cbn [negb andb raise_if bind].
  destruct (Nat.eqb_spec (num_classes c) 0); [lia|]. cbn [raise_if bind]. cbv zeta. rewrite !map_map. cbn [fst snd].
  assert (forallb (fun p : Z * ext R => eleb (Fin (-1)%R) (snd p)) (map (fun x => (b_time x, eabs (signed_bet cdf (num_classes c) x))) (b_rows X)) = false) as ->; [|reflexivity].
  apply not_true_is_false. intros Ht. rewrite forallb_forall in Ht. specialize (Ht (b_time r, eabs (signed_bet cdf (num_classes c) r))).
  rewrite Hs in Ht. cbn in Ht. specialize (Ht ltac:(apply in_map_iff; exists r; rewrite Hs; auto)). discriminate.
Qed.
Lemma invalid_probability cdf c X r p : has_prob X = true -> has_pred X = true -> 1 <= num_classes c -> meta_labeling c = false -> average_active c = false -> discretise c = false ->
  In r (b_rows X) -> b_prob r = Fin p -> (~ (0 <= p <= 1)%R \/ num_classes c = 1 /\ p = 1%R) -> bet_transform cdf c X = Err AssertionError.
Proof.
  intros H1 H2 Hn Hm Ha Hd Hr Hp Hcase. apply (nan_fails cdf c X r); auto. destruct Hcase as [Ho|[E ->]].
  - now apply (signed_bet_outside cdf (num_classes c) r p).
  - rewrite E. now apply signed_bet_one_class.
Qed.

(** Below 1/n the size falls with the probability. *)
Lemma low_probability cdf n p q : cdf_ok cdf -> 2 <= n -> (0 <= p)%R -> (p < q)%R -> (q <= 1 / INR n)%R ->
  (Rabs (confidence cdf n q) < Rabs (confidence cdf n p))%R /\ Rabs (confidence cdf n 0) = 1%R.
Proof.
  intros Hc Hn Hp Hpq Hq. pose proof (inv_n n Hn). split.
  - pose proof (confidence_mono cdf Hc n Hn p q Hp Hpq ltac:(lra)) as Hm.
    assert (confidence cdf n q <= 0)%R.
    { destruct (Rle_lt_or_eq_dec _ _ Hq) as [Hlt| ->]; [|rewrite confidence_zero; auto; lra].
      pose proof (confidence_mono cdf Hc n Hn q (1 / INR n) ltac:(lra) Hlt ltac:(lra)) as H0. rewrite confidence_zero in H0 by auto. lra. }
    rewrite !Rabs_left1 by lra. lra.
  - unfold confidence. destruct (Req_EM_T 0 0); [|lra]. rewrite Rabs_left1; lra.
Qed.
Lemma high_probability cdf n p q : cdf_ok cdf -> 2 <= n -> (1 / INR n <= p)%R -> (p < q)%R -> (q <= 1)%R ->
  (0 <= Rabs (confidence cdf n p) < Rabs (confidence cdf n q))%R.
Proof.
  intros Hc Hn Hp Hpq Hq. pose proof (inv_n n Hn). split; [apply Rabs_pos|].
  pose proof (confidence_mono cdf Hc n Hn p q ltac:(lra) Hpq ltac:(lra)) as Hm.
  assert (0 <= confidence cdf n p)%R.
  { destruct (Rle_lt_or_eq_dec _ _ Hp) as [Hlt| <-]; [|rewrite confidence_zero; auto; lra].
    pose proof (confidence_mono cdf Hc n Hn (1 / INR n) p ltac:(lra) Hlt ltac:(lra)) as H0. rewrite confidence_zero in H0 by auto. lra. }
  rewrite !Rabs_pos_eq by lra. lra.
Qed.
Lemma custom_column cdf c X out : average_active c = true -> bet_size_column_name c <> "bet_size"%string -> bet_transform cdf c X <> Ok out.
Proof.
  intros Ha Hname H. unfold bet_transform in H. destruct (bet_transform_ cdf c X) as [signal|] eqn:E; cbn [bind] in H; [|discriminate]. clear H.
  unfold bet_transform_ in E. destruct (raise_if (negb (has_prob X && has_pred X)) AssertionError); cbn [bind] in E; [|discriminate].
  destruct (raise_if (Nat.eqb (num_classes c) 0) ZeroDivisionError); cbn [bind] in E; [|discriminate]. cbv zeta in E.
  match type of E with (do _ <- ?x ;; _) = Ok _ => destruct x; cbn [bind] in E; [|discriminate] end.
  rewrite Ha in E. destruct (raise_if (negb (has_end X)) KeyError); cbn [bind] in E; [|discriminate].
  destruct (String.eqb_spec (bet_size_column_name c) "bet_size"); [easy|]. discriminate.
Qed.

(** The discretised signal. *)
Lemma c38 step x y vx vy : (0 < step < 1)%R -> discretise_value step (Fin x) = Fin vx -> discretise_value step (Fin y) = Fin vy ->
  (-1 <= vx <= 1)%R /\ ((x <= y)%R -> (vx <= vy)%R) /\ discretise_value step (Fin (- x)%R) = Fin (- vx)%R /\
  ((-1 <= x <= 1)%R -> (Rabs (vx - x) <= step / 2 + 1 / 2000)%R /\ discretise_value step (Fin vx) = Fin vx).
Proof.
  intros Hs. rewrite !discretise_fin by lra. intros [= <-] [= <-]. split; [apply disc_range|]. split; [now apply disc_mono|].
  split; [rewrite disc_opp by lra; reflexivity|]. intros Hx. split; [apply disc_near; lra|]. now rewrite disc_repeat by lra.
Qed.
Lemma c38_defined step signal : (0 < step < 1)%R -> (forall p, In p signal -> exists v, snd p = Fin v) ->
  exists out, discretise_signal step signal = Ok out /\ map fst out = map fst signal /\ Forall (fun p => exists v, snd p = Fin v) out.
Proof.
  intros Hs Hf. unfold discretise_signal, step_ok. destruct (Rlt_dec 0 step); [|lra]. destruct (Rlt_dec step 1); [|lra]. cbn [negb raise_if bind].
  eexists. split; [reflexivity|]. split; [rewrite map_map; reflexivity|]. apply Forall_forall. intros p Hp. apply in_map_iff in Hp as (q & <- & Hq).
  destruct (Hf q Hq) as [v Ev]. cbn [snd]. rewrite Ev, discretise_fin by lra. eauto.
Qed.

Lemma disc_ok step signal : (0 < step < 1)%R -> discretise_signal step signal = Ok (map (fun p => (fst p, discretise_value step (snd p))) signal).
Proof. intros Hs. unfold discretise_signal, step_ok. destruct (Rlt_dec 0 step); [|lra]. destruct (Rlt_dec step 1); [|lra]. reflexivity. Qed.
Lemma c38_values step x y vx vy : (0 < step < 1)%R ->
  discretise_signal step [(0%Z, Fin x); (0%Z, Fin y)] = Ok [(0%Z, Fin vx); (0%Z, Fin vy)] ->
  (-1 <= vx <= 1)%R /\ ((x <= y)%R -> (vx <= vy)%R) /\
  discretise_signal step [(0%Z, Fin (- x)%R)] = Ok [(0%Z, Fin (- vx)%R)] /\
  ((-1 <= x <= 1)%R -> (Rabs (vx - x) <= step / 2 + 1 / 2000)%R /\
                       discretise_signal step [(0%Z, Fin vx)] = Ok [(0%Z, Fin vx)]).
Proof.
  intros Hs. rewrite !disc_ok by auto. cbn [map fst snd]. intros H.
  assert (E1 : discretise_value step (Fin x) = Fin vx) by congruence. assert (E2 : discretise_value step (Fin y) = Fin vy) by congruence.
  destruct (c38 step x y vx vy Hs E1 E2) as (H1 & H2 & H3 & H4). split; auto. split; auto. split; [now rewrite H3|].
  intros Hx. destruct (H4 Hx) as [H5 H6]. split; auto. now rewrite H6.
Qed.
Lemma c38_multiple k x : (0 < k < 1000)%Z -> exists v, nearest_multiple (IZR k / 1000) x v /\
  discretise_signal (IZR k / 1000) [(0%Z, Fin x)] = Ok [(0%Z, Fin (if Rlt_dec 1 v then 1 else if Rlt_dec v (-1) then -1 else v)%R)].
Proof.
  intros Hk. destruct (disc_multiple k x ltac:(lia)) as (v & Hv & E). exists v. split; auto. destruct Hk as [Hk Hk']. apply IZR_lt in Hk, Hk'.
  rewrite disc_ok by lra. cbn [map fst snd]. rewrite discretise_fin by lra. now rewrite E.
Qed.
Lemma c38_transform cdf : cdf_ok cdf -> forall c, 2 <= num_classes c -> forall rows, Forall good_row rows ->
  forall step, average_active c = false -> discretise c = true -> step_size c = Some step -> (0 < step < 1)%R ->
  exists vs, discretise_signal step (map (fun r => (r_time r, Fin (bet_of cdf (num_classes c) (meta_labeling c) r))) rows) = Ok vs /\
    bet_transform cdf c (frame_of rows) = Ok (map (fun p => (fst p, eabs (snd p))) vs).
Proof.
  intros Hc c Hn rows Hr step Ha Hd Hs Hst. eexists. split; [now apply disc_ok|]. rewrite (sizes_discretised cdf c Hn rows Hr step) by auto.
  rewrite !map_map. reflexivity.
Qed.
Lemma c38_out_of_range :
  discretise_signal (7 / 10) [(0%Z, Fin 5%R)] = Ok [(0%Z, Fin 1%R)] /\
  discretise_signal (7 / 10) [(0%Z, Fin 1%R)] = Ok [(0%Z, Fin (7 / 10)%R)].
Proof.
  destruct disc_out_of_range as [E1 E2]. rewrite !disc_ok by lra. cbn [map fst snd]. rewrite !discretise_fin by lra. now rewrite E1, E2.
Qed.
Lemma c36_confidence cdf : cdf_ok cdf -> forall n, 2 <= n ->
  (forall p, (-1 <= confidence cdf n p <= 1)%R) /\
  confidence cdf n (1 / INR n) = 0%R /\ confidence cdf n 0 = (-1)%R /\ confidence cdf n 1 = 1%R /\
  (forall p q, (0 <= p)%R -> (p < q)%R -> (q <= 1)%R -> (confidence cdf n p < confidence cdf n q)%R).
Proof.
  intros Hc n Hn. split; [intros; now apply confidence_range|]. split; [now apply confidence_zero|]. split; [unfold confidence; destruct (Req_EM_T 0 0); lra|].
  split; [unfold confidence; destruct (Req_EM_T 1 0); [lra|]; destruct (Req_EM_T 1 1); lra|]. intros. now apply confidence_mono.
Qed.
Lemma construct_ok c :
  bet_construct c = Ok c /\ (discretise c = false \/ exists s, step_size c = Some s /\ (0 < s < 1)%R) \/
  bet_construct c = Err AssertionError /\ discretise c = true /\ (forall s, step_size c = Some s -> ~ (0 < s < 1)%R).
Proof.
  unfold bet_construct. destruct (discretise c); [|left; auto]. destruct (step_size c) as [s|]; [|right; repeat split; auto; discriminate].
  unfold step_ok. destruct (Rlt_dec 0 s); [destruct (Rlt_dec s 1)|]; cbn [andb].
  - left. split; auto. right. exists s. split; auto.
  - right. repeat split; auto. intros ? [= <-]. lra.
  - right. repeat split; auto. intros ? [= <-]. lra.
Qed.

Definition plain (n : nat) : bet_cfg :=
  {| num_classes := n; average_active := false; meta_labeling := false; discretise := false; step_size := None; bet_size_column_name := "bet_size" |}.
Definition long_row (t : Z) (p : R) : input_row := {| r_time := t; r_prob := p; r_pred := 1; r_side := 0; r_end := None |}.
Lemma two_sizes cdf n p q : cdf_ok cdf -> 2 <= n -> (0 <= p <= 1)%R -> (0 <= q <= 1)%R ->
  bet_transform cdf (plain n) (frame_of [long_row 0 p; long_row 1 q]) =
  Ok [(0%Z, Fin (Rabs (confidence cdf n p))); (1%Z, Fin (Rabs (confidence cdf n q)))].
Proof.
  intros Hc Hn Hp Hq. rewrite (sizes cdf Hc (plain n) Hn); [| |reflexivity|reflexivity].
  - cbn [map long_row r_time plain num_classes meta_labeling]. unfold bet_of. cbn [long_row r_pred r_prob]. now rewrite !Rmult_1_l, !Rmult_1_r.
  - apply Forall_cons; [|apply Forall_cons; [|apply Forall_nil]]; (split; [exact Hp || exact Hq|split; unfold sign_value; cbn [long_row r_pred r_side]; auto]).
Qed.
Lemma high_sizes cdf n p q : cdf_ok cdf -> 2 <= n -> (1 / INR n <= p)%R -> (p < q)%R -> (q <= 1)%R ->
  exists sp sq, bet_transform cdf (plain n) (frame_of [long_row 0 p; long_row 1 q]) = Ok [(0%Z, Fin sp); (1%Z, Fin sq)] /\ (sp < sq)%R.
Proof.
  intros Hc Hn Hp Hpq Hq. pose proof (inv_n n Hn). do 2 eexists. split; [apply two_sizes; auto; lra|]. now apply high_probability.
Qed.
Lemma low_sizes cdf n p q : cdf_ok cdf -> 2 <= n -> (0 <= p)%R -> (p < q)%R -> (q <= 1 / INR n)%R ->
  exists sp sq, bet_transform cdf (plain n) (frame_of [long_row 0 p; long_row 1 q]) = Ok [(0%Z, Fin sp); (1%Z, Fin sq)] /\ (sq < sp)%R /\
    (p = 0%R -> sp = 1%R).
Proof.
  intros Hc Hn Hp Hpq Hq. pose proof (inv_n n Hn). destruct (low_probability cdf n p q Hc Hn Hp Hpq Hq) as [H1 H2].
  do 2 eexists. split; [apply two_sizes; auto; lra|]. split; auto. intros ->. auto.
Qed.
