(** The bet-sizing transformer in double precision. *)
From Coq Require Import Reals ZArith Lia Lra List String Psatz.
From Flocq Require Import Core.
From Verif Require Import Num Series Weights_Model Weights_Spec Bet_Model Bet_Spec Bet_Proofs Bet_Proofs2 Bet_Proofs3 Double_Model Double_Spec Double_Proofs Double_Proofs2
  Double_Boot_Model Double_Boot_Proofs3 Double_Bet_Model Double_Bet_Spec Double_Bet_Proofs Double_Bet_Proofs2.
From Verif Require Scale_Proofs Order_Proofs2.
Import ListNotations.
Local Open Scope R_scope.

Definition unit_double (x : R) : Prop := is_double x /\ Rabs x <= 1.

(** ** Means *)
Lemma esum_double l : forall s, fold_left (@eadd R Arith_double) (map Fin l) (Fin s) = Fin (fold_left (fun s x => to_double (s + x)) l s).
Proof. induction l as [|x l IH]; intros s; [reflexivity|]. cbn [map fold_left eadd aadd Arith_double]. apply IH. Qed.

Lemma sum_accuracy l : forall s k, is_double s -> Rabs s <= INR k -> (Z.of_nat (k + List.length l) <= 2 ^ 53)%Z -> Forall unit_double l ->
  let t := fold_left (fun s x => to_double (s + x)) l s in
  is_double t /\ Rabs t <= INR (k + List.length l) /\
  Rabs (t - (s + rsum l)) <= eps64 * (INR (List.length l) * INR k + INR (List.length l) * (INR (List.length l) + 1) / 2).
Proof.
  pose proof eps64_pos as He. induction l as [|x l IH]; intros s k Ds Hs Hk HF; cbn [fold_left List.length]; cbv zeta.
  - rewrite Nat.add_0_r. cbn [rsum fold_right INR]. rewrite Rplus_0_r, Rminus_eq_0, Rabs_R0. split; [|split]; auto. lra.
  - inversion HF as [|? ? [Dx Hx] HF']; subst. cbn [List.length] in Hk. rewrite Nat.add_succ_r in *. change (S (k + List.length l)) with (S k + List.length l)%nat in *.
    pose proof (error_sum s x Ds Dx) as E. set (s' := to_double (s + x)) in *.
    assert (Hsx : Rabs (s + x) <= INR k + 1) by (eapply Rle_trans; [apply Rabs_triang|]; lra).
    assert (Rabs s' <= INR (S k)) as Hs'.
    { rewrite S_INR. assert (is_double (INR k + 1)) as D by (rewrite <- S_INR, INR_IZR_INZ; apply is_double_IZR; lia). apply abs_le in Hsx. apply Rabs_le. split.
      - apply to_double_ge_double; [now apply is_double_opp|lra].
      - apply to_double_le_double; auto. lra. }
    destruct (IH s' (S k) (to_double_is _) Hs' Hk HF') as (D & B & A). clear IH. split; [|split]; auto.
    set (t := fold_left _ _ _) in *. clearbody t s'. cbn [rsum fold_right]. fold (rsum l). rewrite !S_INR in *.
    replace (t - (s + (x + rsum l))) with ((t - (s' + rsum l)) + (s' - (s + x))) by lra. eapply Rle_trans; [apply Rabs_triang|].
    set (n := INR (List.length l)) in *. set (m := INR k) in *.
    apply Rle_trans with (eps64 * (n * (m + 1) + n * (n + 1) / 2) + eps64 * (m + 1)).
    + apply Rplus_le_compat; auto. eapply Rle_trans; [exact E|]. apply Rmult_le_compat_l; lra.
    + right. field.
Qed.

Definition mean_of (l : list (ext R)) : ext R :=
  match l with [] => Fin 0 | _ => @ediv R Arith_double (@esum R Arith_double l) (Fin (INR (List.length l))) end.
Lemma mean_fin l : Forall unit_double l -> (Z.of_nat (List.length l) <= 2 ^ 53)%Z ->
  exists v, mean_of (map Fin l) = Fin v /\ double_mean l v /\ unit_double v /\
    Rabs (v - match l with [] => 0 | _ => rsum l / INR (List.length l) end) <= INR (List.length l + 4) / 2 ^ 54.
Proof.
  intros HF Hl. destruct l as [|x r] eqn:El.
  { exists 0. split; auto. split; [now left|]. split; [split; [apply is_double_0|rewrite Rabs_R0; lra]|]. rewrite Rminus_eq_0, Rabs_R0. cbn. lra. }
  rewrite <- El in *. assert (Hne : l <> []) by congruence. assert (Hn : 1 <= INR (List.length l)).
  { rewrite El. cbn [List.length]. rewrite S_INR. pose proof (pos_INR (List.length r)). lra. }
  destruct (sum_accuracy l 0 0%nat is_double_0) as (D & B & A); auto; [rewrite Rabs_R0; cbn; lra|]. cbn [Nat.add] in B. rewrite Rplus_0_l in A. cbn [INR] in A.
  set (s := fold_left (fun s x => to_double (s + x)) l 0) in *. set (n := INR (List.length l)) in *.
  assert (E : mean_of (map Fin l) = Fin (to_double (s / n))).
  { unfold mean_of. rewrite El at 1. cbn [map]. unfold esum. cbn [a0 Arith_double].
    rewrite esum_double, map_length. cbn [ediv aeqb Arith_double a0]. fold n. destruct (Req_EM_T n 0); [lra|]. reflexivity. }
  exists (to_double (s / n)). split; auto.
  assert (Hq : Rabs (s / n) <= 1).
  { apply abs_le in B. assert (s = s / n * n) as Es by (field; lra). set (q := s / n) in *. clearbody q. apply Rabs_le. split; apply Rnot_lt_le; intros C; nra. }
  split; [|split].
  - right. split; auto. exists s. split; [|apply to_double_nearest]. apply (seq_sum_added l Hne). eapply Forall_impl; [|exact HF]. now intros ? [].
  - split; [apply to_double_is|]. apply abs_le in Hq. apply Rabs_le. split; [apply to_double_ge_double; [apply is_double_m1|lra]|apply to_double_le_double; [apply is_double_1|lra]].
  - rewrite El. rewrite <- El. fold n. replace (rsum l / n) with (rsum l / n) by auto. pose proof (err _ _ Hq) as Er.
    assert (Rabs (s / n - rsum l / n) <= eps64 * (n + 1) / 2) as Hm.
    { replace (s / n - rsum l / n) with ((s - rsum l) * / n) by (field; lra). rewrite Rabs_mult, (Rabs_pos_eq (/ n)) by (left; apply Rinv_0_lt_compat; lra).
      apply Rmult_le_reg_r with n; [lra|]. rewrite Rmult_assoc, Rinv_l, Rmult_1_r by lra. eapply Rle_trans; [exact A|]. right. field. }
    apply abs_le in Hm. rewrite plus_INR. fold n. cbn [INR]. replace (2 ^ 54) with 18014398509481984 by (rewrite (pow_IZR 2 54); reflexivity).
    apply Rabs_le. unfold eps64 in *. lra.
Qed.

(** ** Averages *)
Lemma avg_at_is bets starts ends t : avg_at_double bets starts ends t =
  mean_of (mask_sel bets (zipw (fun s e => (s <=? t)%Z && ((t <? e)%Z || (e <? 0)%Z))%bool starts ends)).
Proof. reflexivity. Qed.
Lemma mask_sel_length {A} (l : list A) : forall m, (List.length (mask_sel l m) <= List.length l)%nat.
Proof. induction l as [|x l IH]; intros [|[|] m]; cbn; try lia; specialize (IH m); lia. Qed.
Lemma filter_shorter {A} (f : A -> bool) l : (List.length (filter f l) <= List.length l)%nat.
Proof. induction l as [|x l IH]; cbn; [lia|]. destruct (f x); cbn; lia. Qed.
Lemma mask_sel_Forall {A} (P : A -> Prop) l m : Forall P l -> Forall P (mask_sel l m).
Proof. rewrite !Forall_forall. intros H x Hx. apply H. exact (Order_Proofs2.mask_sel_In x l m Hx). Qed.

(** Any times: every average is a double between -1 and 1. *)
Lemma averages_range ps : Forall unit_double (map p_bet ps) -> (Z.of_nat (List.length ps) <= 2 ^ 53)%Z ->
  exists l, avg_active_signals_double (map signal_of ps) = map (fun p => (fst p, Fin (snd p))) l /\ Forall (fun p => unit_double (snd p)) l.
Proof.
  intros HF Hl. unfold avg_active_signals_double. cbv zeta.
  set (times := np_uniqueZ _). set (starts := map (fun s => to_ms (s_start s)) (map signal_of ps)). set (ends := map (fun s => to_timestamp (s_end s)) (map signal_of ps)). clearbody times starts ends.
  assert (Hb : map s_bet (map signal_of ps) = map Fin (map p_bet ps)) by (rewrite !map_map; reflexivity). rewrite Hb.
  induction times as [|t times IH]; [exists []; split; [reflexivity|constructor]|].
  destruct IH as (l & E & HL). cbn [map combine]. rewrite E, avg_at_is, Scale_Proofs.mask_sel_map.
  destruct (mean_fin (mask_sel (map p_bet ps) (zipw (fun s e => (s <=? to_ms t)%Z && ((to_ms t <? e)%Z || (e <? 0)%Z))%bool starts ends))) as (v & Ev & _ & Hv & _).
  - now apply mask_sel_Forall.
  - pose proof (mask_sel_length (map p_bet ps) (zipw (fun s e => (s <=? to_ms t)%Z && ((to_ms t <? e)%Z || (e <? 0)%Z))%bool starts ends)) as H. rewrite map_length in H. lia.
  - exists ((t, v) :: l). rewrite Ev. split; [reflexivity|]. constructor; auto.
Qed.
(** Clean times: the means of the active bets. *)
Lemma averages_mean ps : clean_times ps -> Forall unit_double (map p_bet ps) -> (Z.of_nat (List.length ps) <= 2 ^ 53)%Z ->
  exists l, map fst l = times_of (map signal_of ps) /\ avg_active_signals_double (map signal_of ps) = map (fun p => (fst p, Fin (snd p))) l /\
    Forall (fun p => double_mean (active_bets ps (fst p)) (snd p) /\ unit_double (snd p) /\
      Rabs (snd p - mean_active ps (fst p)) <= INR (List.length (active_bets ps (fst p)) + 4) / 2 ^ 54) l.
Proof.
  intros Hc HF Hl. unfold avg_active_signals_double. fold (times_of (map signal_of ps)). cbv zeta.
  assert (forall t, In t (times_of (map signal_of ps)) -> whole_ms t) as Ht.
  { intros t Ht. apply times_change in Ht as (p & Hp & Ht). destruct (Hc p Hp) as [Hs He]. destruct Ht as [<-|E]; [exact Hs|now apply He]. }
  set (times := times_of (map signal_of ps)) in *. clearbody times.
  induction times as [|t times IH]; [exists []; repeat split; constructor|].
  destruct IH as (l & El & E & HL); [intros; apply Ht; now right|]. cbn [map combine]. rewrite E, avg_at_is, (avg_mask ps t Hc) by (apply Ht; now left).
  assert (Forall unit_double (active_bets ps t)) as HA.
  { rewrite Forall_forall in *. intros x Hx. apply in_map_iff in Hx as (p & <- & Hp). apply filter_In in Hp as [Hp _]. apply HF, in_map_iff. eauto. }
  destruct (mean_fin (active_bets ps t) HA) as (v & Ev & Hm & Hu & Ha).
  - unfold active_bets. rewrite map_length. pose proof (filter_shorter (active t) ps). lia.
  - exists ((t, v) :: l). rewrite Ev. cbn [map fst snd]. rewrite El. split; [reflexivity|]. split; [reflexivity|]. constructor; [|exact HL]. cbn [fst snd]. split; [exact Hm|]. split; [exact Hu|]. unfold mean_active. destruct (active_bets ps t); exact Ha.
Qed.

(** ** The transformer *)
Section Transform.
  Variable cdf : R -> R.
  Hypothesis Hcdf : double_cdf cdf.
  Variable c : bet_cfg.
  Hypothesis Hc : usable c.
  Variable rows : list input_row.
  Hypothesis Hrows : Forall good_double_row rows.
  Let bet := double_bet_of cdf (num_classes c) (meta_labeling c).
  Let pos := double_position_of cdf (num_classes c) (meta_labeling c).

  Lemma rows_good : Forall good_row rows.
  Proof. eapply Forall_impl; [|exact Hrows]. now intros ? []. Qed.
  Lemma bet_unit r : In r rows -> unit_double (bet r).
  Proof.
    intros Hr. rewrite Forall_forall in Hrows. destruct (Hrows r Hr) as ((Hp & Hd & Hs) & D). unfold bet, double_bet_of.
    destruct (confidence_double cdf Hcdf (num_classes c) (r_prob r)) as [DC HC]. set (k := double_confidence _ _ _) in *. clearbody k.
    pose proof (double_sign k _ DC Hd) as D1. split.
    - destruct (meta_labeling c); [|now rewrite Rmult_1_r]. rewrite Rmult_comm. now apply double_sign.
    - assert (forall v x, sign_value v -> -1 <= x <= 1 -> -1 <= v * x <= 1) as H by (intros v x [->|[->| ->]] ?; lra).
      apply Rabs_le. destruct (meta_labeling c); [|rewrite Rmult_1_r; now apply H]. rewrite Rmult_comm. apply H; auto.
  Qed.
  Lemma bets_double : (if meta_labeling c then
       do _ <- raise_if (negb (forallb known_side (map brow_of rows))) AssertionError ;;
       Ok (map (fun p => (fst p, @emul R Arith_double (snd p) (b_side (fst p)))) (map (fun r => (r, signed_bet_double cdf (num_classes c) r)) (map brow_of rows)))
     else Ok (map (fun r => (r, signed_bet_double cdf (num_classes c) r)) (map brow_of rows))) =
     Ok (map (fun r => (brow_of r, Fin (bet r))) rows).
  Proof.
    destruct Hc as (H2 & H53 & _).
    assert (E : map (fun r => (r, signed_bet_double cdf (num_classes c) r)) (map brow_of rows) = map (fun r => (brow_of r, Fin (r_pred r * double_confidence cdf (num_classes c) (r_prob r))%R)) rows).
    { rewrite map_map. apply map_ext_in. intros r Hr. f_equal. rewrite Forall_forall in Hrows. destruct (Hrows r Hr) as ((? & ? & ?) & ?). now apply signed_bet_double_fin. }
    assert (HB : forall r, In r rows -> is_double (double_bet_of cdf (num_classes c) (meta_labeling c) r)) by (intros r Hr; exact (proj1 (bet_unit r Hr))).
    rewrite E, (known_sides rows rows_good). unfold bet. clear pos. clearbody bet. destruct (meta_labeling c) eqn:Em; cbn [raise_if negb bind]; f_equal.
    - rewrite map_map. apply map_ext_in. intros r Hr. cbn [fst snd brow_of b_side emul amul Arith_double]. f_equal. f_equal.
      now apply to_double_id, HB.
    - apply map_ext. intros r. unfold double_bet_of. now rewrite Rmult_1_r.
  Qed.

  Definition final (l : list (Z * R)) : list (Z * R) :=
    if discretise c then map (fun p => (fst p, ddisc (match step_size c with Some s => s | None => 1 end) (snd p))) l else l.
  Lemma finish l : Forall (fun p => unit_double (snd p)) l ->
    (do signal <- (do signal <- (if discretise c then match step_size c with Some s => discretise_signal_double s (map (fun p => (fst p, Fin (snd p))) l) | None => Err TypeError end
                  else Ok (map (fun p => (fst p, Fin (snd p))) l)) ;; Ok (map (fun p => (fst p, eabs (snd p))) signal)) ;;
     do _ <- raise_if (negb (forallb (fun p => eleb (Fin (-1)%R) (snd p)) signal)) AssertionError ;;
     do _ <- raise_if (negb (forallb (fun p => eleb (snd p) (Fin 1%R)) signal)) AssertionError ;;
     Ok signal) = Ok (map (fun p => (fst p, Fin (Rabs (snd p)))) (final l)) /\ Forall (fun p => unit_double (snd p)) (final l).
  Proof.
    intros HL. destruct Hc as (_ & _ & Hd & _). unfold final.
    assert (Hfin : forall l, Forall (fun p => unit_double (snd p)) l -> (do signal <- Ok (map (fun p => (fst p, eabs (snd p))) (map (fun p : Z * R => (fst p, Fin (snd p))) l)) ;;
     do _ <- raise_if (negb (forallb (fun p => eleb (Fin (-1)%R) (snd p)) signal)) AssertionError ;;
     do _ <- raise_if (negb (forallb (fun p => eleb (snd p) (Fin 1%R)) signal)) AssertionError ;;
     Ok signal) = Ok (map (fun p => (fst p, Fin (Rabs (snd p)))) l)).
    { clear. intros l HL. cbn [bind]. rewrite map_map. cbn [fst snd].
      assert (E : map (fun x : Z * R => (fst x, eabs (Fin (snd x)))) l = map (fun p => (fst p, Fin (snd p))) (map (fun p => (fst p, Rabs (snd p))) l)).
      { rewrite map_map. apply map_ext. intros p. cbn [fst snd]. now rewrite eabs_R. }
      rewrite (checks_pass (map (fun p => (fst p, Rabs (snd p))) l)); [|intros p Hp|exact E].
      - rewrite E, map_map. reflexivity.
      - apply in_map_iff in Hp as (q & <- & Hq). cbn [snd]. rewrite Forall_forall in HL. destruct (HL q Hq). split; auto. apply Rabs_pos. }
    destruct (discretise c).
    - destruct (Hd eq_refl) as (s & -> & Ds & Hs).
      assert (E : discretise_signal_double s (map (fun p => (fst p, Fin (snd p))) l) = Ok (map (fun p => (fst p, Fin (snd p))) (map (fun p => (fst p, ddisc s (snd p))) l))).
      { unfold discretise_signal_double, step_ok. destruct (Rlt_dec 0 s); [|lra]. destruct (Rlt_dec s 1); [|lra]. cbn [negb raise_if bind]. f_equal.
        rewrite !map_map. apply map_ext. intros p. cbn [fst snd]. now rewrite discretise_double_fin by lra. }
      rewrite E. assert (HL' : Forall (fun p => unit_double (snd p)) (map (fun p => (fst p, ddisc s (snd p))) l)).
      { apply Forall_forall. intros p Hp. apply in_map_iff in Hp as (q & <- & _). cbn [snd]. split; [apply ddisc_double|]. apply Rabs_le, ddisc_range. }
      split; auto. exact (Hfin _ HL').
    - split; auto. exact (Hfin l HL).
  Qed.

  Lemma plain_double : average_active c = false ->
    bet_transform_double cdf c (frame_of rows) = Ok (map (fun p => (fst p, Fin (Rabs (snd p)))) (final (map (fun r => (r_time r, bet r)) rows))).
  Proof.
    intros Ha. unfold bet_transform_double, bet_transform_double_. cbn [frame_of has_prob has_pred has_side has_end b_rows negb andb raise_if bind].
    destruct Hc as (H2 & _). destruct (Nat.eqb_spec (num_classes c) 0); [lia|]. cbn [raise_if bind]. cbv zeta. rewrite bets_double. cbn [bind]. rewrite Ha. cbn [bind].
    rewrite map_map. cbn [fst snd brow_of b_time].
    destruct (finish (map (fun r => (r_time r, bet r)) rows)) as [E _].
    { apply Forall_forall. intros p Hp. apply in_map_iff in Hp as (r & <- & Hr). now apply bet_unit. }
    rewrite map_map in E. cbn [fst snd] in E. exact E.
  Qed.
  Lemma average_double l : average_active c = true -> avg_active_signals_double (map signal_of (map pos rows)) = map (fun p => (fst p, Fin (snd p))) l ->
    Forall (fun p => unit_double (snd p)) l ->
    bet_transform_double cdf c (frame_of rows) = Ok (map (fun p => (fst p, Fin (Rabs (snd p)))) (final l)).
  Proof.
    intros Ha E HL. unfold bet_transform_double, bet_transform_double_. cbn [frame_of has_prob has_pred has_side has_end b_rows negb andb raise_if bind].
    pose proof Hc as (H2 & _ & _ & Hname). destruct (Nat.eqb_spec (num_classes c) 0); [lia|]. cbn [raise_if bind]. cbv zeta. rewrite bets_double. cbn [bind]. rewrite Ha, (Hname Ha).
    cbn [negb raise_if bind String.eqb Ascii.eqb Bool.eqb]. rewrite map_map. cbn [fst snd brow_of b_time b_end].
    replace (map (fun x => {| s_start := r_time x; s_end := r_end x; s_bet := Fin (bet x) |}) rows) with (map signal_of (map pos rows)) by (rewrite map_map; reflexivity).
    rewrite E. exact (proj1 (finish l HL)).
  Qed.
  Lemma positions_unit : Forall unit_double (map p_bet (map pos rows)).
  Proof. rewrite map_map. apply Forall_forall. intros x Hx. apply in_map_iff in Hx as (r & <- & Hr). now apply bet_unit. Qed.
End Transform.

(** ** Errors *)
Lemma same_errors cdf cdf' c X e : bet_transform_ cdf c X = Err e <-> bet_transform_double_ cdf' c X = Err e.
Proof.
  unfold bet_transform_, bet_transform_double_. destruct (negb (has_prob X && has_pred X)); [reflexivity|]. cbn [raise_if bind].
  destruct (Nat.eqb (num_classes c) 0); [reflexivity|]. cbn [raise_if bind].
  assert (F : forall l l', (do signal <- (if average_active c then
       do _ <- raise_if (negb (has_end X)) KeyError ;;
       do _ <- raise_if (negb (String.eqb (bet_size_column_name c) "bet_size")) KeyError ;;
       Ok (avg_active_signals (map (fun p => {| s_start := b_time (fst p); s_end := b_end (fst p); s_bet := snd p |}) l))
     else Ok (map (fun p => (b_time (fst p), snd p)) l)) ;;
     do signal <- (if discretise c then match step_size c with Some s => discretise_signal s signal | None => Err TypeError end else Ok signal) ;;
     Ok (map (fun p => (fst p, eabs (snd p))) signal)) = Err e <->
     (do signal <- (if average_active c then
       do _ <- raise_if (negb (has_end X)) KeyError ;;
       do _ <- raise_if (negb (String.eqb (bet_size_column_name c) "bet_size")) KeyError ;;
       Ok (avg_active_signals_double (map (fun p => {| s_start := b_time (fst p); s_end := b_end (fst p); s_bet := snd p |}) l'))
     else Ok (map (fun p => (b_time (fst p), snd p)) l')) ;;
     do signal <- (if discretise c then match step_size c with Some s => discretise_signal_double s signal | None => Err TypeError end else Ok signal) ;;
     Ok (map (fun p => (fst p, eabs (snd p))) signal)) = Err e).
  { intros l l'. unfold discretise_signal, discretise_signal_double.
    destruct (average_active c), (negb (has_end X)), (negb (String.eqb (bet_size_column_name c) "bet_size")), (discretise c), (step_size c) as [s|];
      cbn [raise_if bind]; try reflexivity; try (destruct (negb (step_ok s)); cbn [raise_if bind]); try reflexivity; split; discriminate. }
  destruct (meta_labeling c); [|apply F]. destruct (negb (has_side X)); [reflexivity|]. cbn [raise_if bind].
  destruct (negb (forallb known_side (b_rows X))); [reflexivity|]. cbn [raise_if bind]. apply F.
Qed.
