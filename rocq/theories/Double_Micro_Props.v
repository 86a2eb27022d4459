(** C119: the microstructural features in double precision. *)
From Coq Require Import Reals ZArith QArith Qreals Lra Lia List String.
From Verif Require Import Prelude PreludeFacts Num Series Feat_Model Feat_Spec Feat_Proofs3 Double_Model Double_Spec Double_Proofs
  Rounding_Model Rounding_Proofs Rounding_Arith_Model Rounding_Arith_Proofs Double_Vpin_Model Double_Vpin_Proofs3 Double_Cross_Model Double_Cross_Proofs2 Double_Z_Proofs2
  Double_Micro_Model Double_Micro_Spec Double_Micro_Proofs Double_Micro_Proofs2.
Import ListNotations.
Local Open Scope R_scope.
Local Notation length := List.length.

(** In exact arithmetic the running, compensated means, sums and covariances give the features of C43. *)
Theorem C119_exact : forall w X high low close volume, (0 < w)%nat ->
  let den := 3 - 2 * sqrt 2 in
  let k2 := sqrt (8 / PI) in
  roll_measure_running Arith_R sqrt w close X = roll_measure w close X /\
  parkinson_running Arith_R ln (1 / (4 * ln 2)) w high low X = parkinson w high low X /\
  corwin_schultz_running Arith_R ln exp sqrt den (sqrt 2 - 1) w high low X = corwin_schultz w high low X /\
  beckers_parkinson_running Arith_R ln sqrt (1 / sqrt 2 - 1) (k2 * den) (k2 * k2 * den) w high low X = beckers_parkinson w high low X /\
  kyle_running Arith_R w close volume X = kyle_lambda w close volume X /\
  amihud_running Arith_R ln w close volume X = amihud_lambda w close volume X /\
  hasbrouck_running Arith_R ln sqrt w close volume X = hasbrouck_lambda w close volume X.
Proof.
  intros w X high low close volume Hw. cbv zeta. auto 10 using roll_exact, parkinson_exact, corwin_exact, beckers_exact, kyle_exact, amihud_exact, hasbrouck_exact.
Qed.
Print Assumptions C119_exact.

(** In doubles, whatever the logarithm returns, no feature is negative: a row is missing, infinite, or a number that is not negative. *)
Theorem C119_not_negative : forall log root w X high low close volume constant c d e, (0 < w)%nat -> 0 < constant ->
  (forall a, 0 <= a -> 0 <= root a) -> volumes_not_negative X volume ->
  forall out, roll_measure_running Arith_double root w close X = Ok out \/
              parkinson_running Arith_double log constant w high low X = Ok out \/
              beckers_parkinson_running Arith_double log root c d e w high low X = Ok out \/
              kyle_running Arith_double w close volume X = Ok out \/
              amihud_running Arith_double log w close volume X = Ok out \/
              hasbrouck_running Arith_double log root w close volume X = Ok out ->
  Forall not_negative out.
Proof.
  intros log root w X high low close volume constant c d e Hw Hk Hr Hv out [H|[H|[H|[H|[H|H]]]]].
  - now apply (roll_sign root Hr w close X).
  - now apply (parkinson_sign log w Hw constant high low X).
  - now apply (beckers_sign log root w c d e high low X).
  - now apply (kyle_sign w Hw close volume X).
  - now apply (amihud_sign log w Hw close volume X).
  - now apply (hasbrouck_sign log root Hr w Hw close volume X).
Qed.
Print Assumptions C119_not_negative.

(** The Corwin-Schultz spread is missing or a number between 0 and 2, whatever the logarithm returns, if the exponential of a number that is not
    negative is at least 1. *)
Theorem C119_spread_range : forall log exp root w X high low den c, (forall a, 0 <= a -> 1 <= exp a) ->
  forall out, corwin_schultz_running Arith_double log exp root den c w high low X = Ok out ->
  Forall (fun x => x = NaN \/ exists v, x = Fin v /\ 0 <= v <= 2) out.
Proof. intros log exp root w X high low den c He out H. now apply (corwin_sign log exp root He w den c high low X). Qed.
Print Assumptions C119_spread_range.

(** A price that never moves, volumes that are positive: in doubles too every impact, volatility and spread is exactly 0, from the first full window on. *)
Theorem C119_flat : forall log exp root w X high low close volume p v constant den c d e,
  (0 < w)%nat -> (Z.of_nat w <= 2 ^ 53)%Z -> 0 < p -> log 1 = 0 -> exp 0 = 1 -> root 0 = 0 -> (forall a, 0 < a -> 0 < root a) -> den <> 0 -> d <> 0 -> e <> 0 ->
  (forall x, In x v -> exists u, x = Fin u /\ 0 < u) ->
  lookup volume X = Some v -> (forall name, In name [high; low; close] -> lookup name X = Some (repeat (Fin p) (length v))) ->
  let zero_after k := Ok (level 0 k (length v)) in
  kyle_running Arith_double w close volume X = zero_after w /\
  amihud_running Arith_double log w close volume X = zero_after w /\
  hasbrouck_running Arith_double log root w close volume X = zero_after w /\
  parkinson_running Arith_double log constant w high low X = zero_after (w - 1)%nat /\
  corwin_schultz_running Arith_double log exp root den c w high low X = zero_after w /\
  beckers_parkinson_running Arith_double log root c d e w high low X = zero_after w.
Proof.
  intros log exp root w X high low close volume p v constant den c d e Hw Hw' Hp Hl He Hr Hr' Hd Hd' He' Hv Hvol Hn. cbv zeta.
  assert (F : Forall positive v) by (apply Forall_forall; exact Hv). pose proof (Hn high ltac:(cbn; auto)) as Hh. pose proof (Hn low ltac:(cbn; auto)) as Hlo. pose proof (Hn close ltac:(cbn; auto)) as Hc.
  split; [now apply (kyle_flat w Hw Hw' X close volume p v)|]. split; [now apply (amihud_flat log w Hw Hw' X close volume p v)|]. split; [now apply (hasbrouck_flat log root w Hw Hw' X close volume p v)|].
  split.
  - replace (length v) with (length (repeat (@Fin R p) (length v))) by apply repeat_length. apply (parkinson_flat log w Hw Hw' X); auto. apply Forall_forall. intros x Hx. apply repeat_spec in Hx as ->. now exists p.
  - split; [now apply (corwin_flat log exp root w Hw Hw' X Hl Hr den c high low p)|now apply (beckers_flat log root w Hw Hw' X Hl Hr c d e high low p)].
Qed.
Print Assumptions C119_flat.

(** Decimal numbers, held as the nearest doubles. *)
Definition held (l : list Q) : list (ext R) := map (fun q => Fin (to_double (Q2R q))) l.
Definition run (l : list Q) : list (ext Q) := map (fun q => Fin (rounded q)) l.
Lemma held_run l : held l = map real (run l).
Proof. unfold held, run. rewrite map_map. apply map_ext. intros q. cbn [real]. now rewrite rounded_double. Qed.
Definition market (closes volumes highs lows : list Q) : frame :=
  {| f_index := [1; 2; 3; 4; 5]%Z; f_cols := [("close", held closes); ("volume", held volumes); ("high", held highs); ("low", held lows)]%string |}.
(** Two price changes, then none: 2.5, 2.7, 2.2, 2.2, 2.2. *)
Definition closes : list Q := [25 # 10; 27 # 10; 22 # 10; 22 # 10; 22 # 10].
Definition volumes : list Q := [1 # 1; 12 # 10; 15 # 10; 17 # 10; 8 # 10].
(** Two wide bars, then bars without any range: 1.3/0.6, 2.6/0.8, 1/1, 1/1, 1/1. *)
Definition highs : list Q := [13 # 10; 26 # 10; 1 # 1; 1 # 1; 1 # 1].
Definition lows : list Q := [6 # 10; 8 # 10; 1 # 1; 1 # 1; 1 # 1].

Lemma kyle_run cs vs hs ls : (length cs <= 5)%nat -> kyle_running Arith_double 2 "close" "volume" (market cs vs hs ls) =
  Ok (map real (@kahan_mean Q Arith_rounded 2 (zipw (@ediv Q Arith_rounded) (map (@eabs Q Arith_rounded) (@diff Q Arith_rounded (run cs))) (run vs)))).
Proof.
  intros Hl. unfold kyle_running. replace (column "close" (market cs vs hs ls)) with (Ok (held cs)) by reflexivity. replace (column "volume" (market cs vs hs ls)) with (Ok (held vs)) by reflexivity.
  replace (check_missing_columns (market cs vs hs ls) ["close"; "volume"]%string) with (Ok tt) by reflexivity. cbn [bind]. f_equal. rewrite !held_run, real_kahan_mean.
  - f_equal. rewrite (real_zipw _ (@ediv R DA)) by (intros; apply real_ediv). f_equal. rewrite <- real_diff, !map_map. apply map_ext. intros x. symmetry. apply real_eabs.
  - unfold zipw, diff, zipw. rewrite !map_length, !combine_length, !map_length, !combine_length. unfold run. rewrite map_length. lia.
Qed.
(** Kyle's lambda with a window of 2: the price did not move in the last window, but what the earlier moves left behind makes the impact positive;
    in exact arithmetic it is 0. *)
Theorem C119_residue_refuted : exists out v, kyle_running Arith_double 2 "close" "volume" (market closes volumes highs lows) = Ok out /\
  nth_error out 4 = Some (Fin v) /\ 0 < v /\
  exists exact, kyle_lambda 2 "close" "volume" (market closes volumes highs lows) = Ok exact /\ nth_error exact 4 = Some (Fin 0).
Proof.
  rewrite kyle_run by (cbn; lia). eexists. eexists. split; [reflexivity|]. split; [rewrite nth_error_map; vm_compute (nth_error _ _); cbn [option_map real]; reflexivity|]. split.
  - rewrite <- real_0. apply Qlt_Rlt. reflexivity.
  - unfold kyle_lambda. replace (column "close" (market closes volumes highs lows)) with (Ok (held closes)) by reflexivity.
    replace (column "volume" (market closes volumes highs lows)) with (Ok (held volumes)) by reflexivity.
    replace (check_missing_columns (market closes volumes highs lows) ["close"; "volume"]%string) with (Ok tt) by reflexivity. cbn [bind]. eexists. split; [reflexivity|].
    unfold held, closes, volumes. cbn [map]. set (a := to_double (Q2R (25 # 10))). set (b := to_double (Q2R (27 # 10))). set (c := to_double (Q2R (22 # 10))).
    assert (V1 : to_double (Q2R (17 # 10)) <> 0). { rewrite <- rounded_double. intros H. rewrite <- real_0 in H. apply eqR_Qeq in H. vm_compute in H. discriminate. }
    assert (V2 : to_double (Q2R (8 # 10)) <> 0). { rewrite <- rounded_double. intros H. rewrite <- real_0 in H. apply eqR_Qeq in H. vm_compute in H. discriminate. }
    revert V1 V2. generalize (to_double (Q2R (17 # 10))) (to_double (Q2R (8 # 10))) (to_double (Q2R (15 # 10))) (to_double (Q2R (12 # 10))) (to_double (Q2R (1 # 1))). intros v3 v4 v2 v1 v0 V1 V2. clearbody a b c.
    rewrite rolling_nth by (cbn; lia). f_equal.
    assert (E : forall u, u <> 0 -> @ediv R Arith_R (@eabs R Arith_R (@esub R Arith_R (Fin c) (Fin c))) (Fin u) = Fin 0).
    { intros u Hu. cbn. destruct (Rlt_dec (c + - c) 0); [lra|]. cbn. destruct (Req_EM_T u 0); [lra|]. f_equal. unfold adiv. cbn. lra. }
    replace (last_values 2 _ 4) with (all_numbers [@ediv R Arith_R (@eabs R Arith_R (@esub R Arith_R (Fin c) (Fin c))) (Fin v3); @ediv R Arith_R (@eabs R Arith_R (@esub R Arith_R (Fin c) (Fin c))) (Fin v4)]) by reflexivity.
    rewrite !E by assumption. cbn. f_equal. unfold mean. cbn. lra.
Qed.
Print Assumptions C119_residue_refuted.

Lemma at1 agg l i x : nth_error l i = Some (Fin x) -> nth_error (rolling 1 agg l) i = Some (agg [x]).
Proof.
  intros H. rewrite rolling_nth by (try lia; apply nth_error_Some; congruence). f_equal. unfold last_values. destruct (Nat.ltb_spec (i + 1) 1); [lia|]. cbn [seq map].
  replace (i + 1 - 1 + 0)%nat with i by lia. rewrite (nth_error_nth _ _ NaN H). reflexivity.
Qed.
Lemma at2 agg l i x y : nth_error l i = Some (Fin x) -> nth_error l (S i) = Some (Fin y) -> nth_error (rolling 2 agg l) (S i) = Some (agg [x; y]).
Proof.
  intros H H'. rewrite rolling_nth by (try lia; apply nth_error_Some; congruence). f_equal. unfold last_values. destruct (Nat.ltb_spec (S i + 1) 2); [lia|]. cbn [seq map].
  replace (S i + 1 - 2 + 0)%nat with i by lia. replace (S i + 1 - 2 + 1)%nat with (S i) by lia. rewrite (nth_error_nth _ _ NaN H), (nth_error_nth _ _ NaN H'). reflexivity.
Qed.
(** Exact arithmetic: two bars at one price give a spread of 0. *)
Lemma quiet_exact X hs ls i p : 0 < p -> lookup "high" X = Some hs -> lookup "low" X = Some ls ->
  nth_error hs i = Some (Fin p) -> nth_error hs (S i) = Some (Fin p) -> nth_error ls i = Some (Fin p) -> nth_error ls (S i) = Some (Fin p) ->
  exists exact, corwin_schultz 1 "high" "low" X = Ok exact /\ nth_error exact (S i) = Some (Fin 0).
Proof.
  intros Hp Hh Hl H1 H2 H3 H4. unfold corwin_schultz, check_missing_columns, column. cbn [forallb]. rewrite Hh, Hl. cbn [andb negb raise_if bind]. eexists. split; [reflexivity|].
  assert (E : forall j, nth_error hs j = Some (Fin p) -> nth_error ls j = Some (Fin p) -> nth_error (map esquare (map elog (zipw (@ediv R Arith_R) hs ls))) j = Some (Fin 0)).
  { intros j A B. rewrite !nth_error_map. rewrite (zipw_at _ _ _ _ _ _ A B). cbn [option_map ediv]. change (@aeqb R Arith_R p (@a0 R Arith_R)) with (if Req_EM_T p 0 then true else false).
    destruct (Req_EM_T p 0); [lra|]. unfold adiv. cbn [amul ainv Arith_R]. rewrite Rinv_r by lra. cbn [elog]. destruct (Rlt_dec 0 1); [|lra]. rewrite ln_1. cbn. do 2 f_equal. lra. }
  assert (B : nth_error (get_beta hs ls 1) (S i) = Some (Fin 0)).
  { unfold get_beta. rewrite (at1 _ _ _ 0); [cbn; do 2 f_equal; unfold mean; cbn; lra|]. rewrite (at2 _ _ _ 0 0) by (now apply E). unfold agg_sum. do 2 f_equal. cbn. lra. }
  assert (G : nth_error (get_gamma hs ls) (S i) = Some (Fin 0)).
  { unfold get_gamma. rewrite !nth_error_map. rewrite (zipw_at _ _ _ _ _ _ (at2 agg_max _ _ _ _ H1 H2) (at2 agg_min _ _ _ _ H3 H4)). cbn [option_map agg_max agg_min fold_left]. rewrite Rmax_left, Rmin_left by lra.
    cbn [ediv]. change (@aeqb R Arith_R p (@a0 R Arith_R)) with (if Req_EM_T p 0 then true else false). destruct (Req_EM_T p 0); [lra|]. unfold adiv. cbn [amul ainv Arith_R]. rewrite Rinv_r by lra.
    cbn [elog]. destruct (Rlt_dec 0 1); [|lra]. rewrite ln_1. cbn. do 2 f_equal. lra. }
  rewrite nth_error_map. unfold get_alpha. rewrite nth_error_map. erewrite zipw_at; [|rewrite nth_error_map, B; reflexivity|rewrite nth_error_map, G; reflexivity]. cbn [option_map].
  assert (D : den_cs <> 0).
  { unfold den_cs. intros H. assert (sqrt 2 = 3 / 2) by lra. pose proof (sqrt_sqrt 2 ltac:(lra)). rewrite H0 in H5. lra. }
  assert (Z : epow_half (Fin 0) = Fin 0) by (cbn; destruct (Rlt_dec 0 0); [lra|]; now rewrite sqrt_0).
  assert (O : @ediv R Arith_R (Fin 0) (Fin den_cs) = Fin 0).
  { cbn [ediv]. change (@aeqb R Arith_R den_cs (@a0 R Arith_R)) with (if Req_EM_T den_cs 0 then true else false). destruct (Req_EM_T den_cs 0); [lra|]. f_equal. unfold adiv. cbn. lra. }
  rewrite Z, O, Z. replace (@emul R Arith_R (Fin (sqrt 2 - 1)) (Fin 0)) with (@Fin R 0) by (cbn; f_equal; lra). rewrite O.
  replace (@esub R Arith_R (Fin 0) (Fin 0)) with (@Fin R 0) by (cbn; f_equal; lra). rewrite neg_0. cbn [eexp]. rewrite exp_0. cbn. destruct (Req_EM_T (1 + 1) 0); [lra|]. do 2 f_equal. unfold adiv. cbn. lra.
Qed.
(** The quiet rows of the spread, whatever the constants: a negative sum of squares has no root. *)
Lemma quiet_row log exp root den c w X hs ls i b : lookup "high" X = Some hs -> lookup "low" X = Some ls -> (i < length hs)%nat -> length ls = length hs ->
  nth_error (beta_running Arith_double log hs ls w) i = Some (Fin b) -> b < 0 ->
  exists out, corwin_schultz_running Arith_double log exp root den c w "high" "low" X = Ok out /\ nth_error out i = Some NaN.
Proof.
  intros Hh Hl Hi Hlen Hb Hneg. unfold corwin_schultz_running. unfold check_missing_columns, column. cbn [forallb]. rewrite Hh, Hl. cbn [andb negb raise_if bind]. eexists. split; [reflexivity|].
  assert (G : exists g, nth_error (gamma_running Arith_double log hs ls) i = Some g).
  { destruct (nth_error (gamma_running Arith_double log hs ls) i) eqn:E; [eauto|]. apply nth_error_None in E. exfalso. revert E. unfold gamma_running, rolling, zipw. rewrite !map_length, combine_length, !map_length, !seq_length. lia. }
  destruct G as [g G]. unfold alpha_running. rewrite !nth_error_map. erewrite zipw_at; [|rewrite nth_error_map, Hb; reflexivity|rewrite nth_error_map, G; reflexivity].
  cbn [option_map]. unfold npow_half, nsqrt at 1. destruct (Rlt_dec b 0); [|lra]. reflexivity.
Qed.
Definition log_ratio (x : ext Q) : ext Q :=
  match x with Fin q => if Qeq_bool q 1 then Fin 0%Q else if Qeq_bool q (13 # 4) then Fin (5308190202322611 # 4503599627370496) else Fin (6964275385069889 # 9007199254740992) | _ => x end.
(** The Corwin-Schultz spread with a window of 1, for a logarithm with these values at the ratios of the first two bars (those of the C library,
    which are the nearest doubles): after two wide bars the market is still, but the sum of two zeros is computed as a negative number and the spread
    is missing; in exact arithmetic it is 0. The constants, the exponential and the root do not matter. *)
Theorem C119_quiet_refuted : forall log exp root den c,
  log 1 = 0 -> log (Q2R (2439449798159019 # 1125899906842624)) = Q2R (6964275385069889 # 9007199254740992) ->
  log (Q2R (13 # 4)) = Q2R (5308190202322611 # 4503599627370496) ->
  (exists out, corwin_schultz_running Arith_double log exp root den c 1 "high" "low" (market closes volumes highs lows) = Ok out /\
    nth_error out 3 = Some NaN /\ nth_error out 4 = Some NaN) /\
  exists exact, corwin_schultz 1 "high" "low" (market closes volumes highs lows) = Ok exact /\ nth_error exact 3 = Some (Fin 0) /\ nth_error exact 4 = Some (Fin 0).
Proof.
  intros log exp root den c L0 L1 L2.
  assert (B : beta_running Arith_double log (held highs) (held lows) 1 =
    map real (@kahan_mean Q Arith_rounded 1 (@kahan_sum Q Arith_rounded 2 (map (fun x => @emul Q Arith_rounded x x) (map log_ratio (zipw (@ediv Q Arith_rounded) (run highs) (run lows))))))).
  { unfold beta_running. rewrite real_kahan_mean by (vm_compute; discriminate). rewrite real_kahan_sum. do 2 f_equal. rewrite !held_run, <- (real_zipw (@ediv Q RA)) by (intros; apply real_ediv).
    rewrite !map_map. apply map_ext_in. intros x Hx. rewrite real_emul. unfold nsquare.
    replace (nlog log (real x)) with (real (log_ratio x)); [reflexivity|].
    assert (P : 0 < Q2R (2439449798159019 # 1125899906842624)) by (rewrite <- real_0; apply Qlt_Rlt; reflexivity). assert (P' : 0 < Q2R (13 # 4)) by (rewrite <- real_0; apply Qlt_Rlt; reflexivity).
    assert (O : Q2R 1 = 1) by apply RMicromega.Q2R_1.
    vm_compute (zipw _ _ _) in Hx. destruct Hx as [<-|[<-|Hx]].
    - match goal with |- _ = nlog log (real (Fin ?q)) => change (real (Fin q)) with (Fin (Q2R q)); replace (Q2R q) with (Q2R (2439449798159019 # 1125899906842624)) by (apply Qeq_eqR; reflexivity) end.
      cbn [nlog]. destruct (Rlt_dec _ _); [|lra]. rewrite L1. reflexivity.
    - match goal with |- _ = nlog log (real (Fin ?q)) => change (real (Fin q)) with (Fin (Q2R q)); replace (Q2R q) with (Q2R (13 # 4)) by (apply Qeq_eqR; reflexivity) end.
      cbn [nlog]. destruct (Rlt_dec _ _); [|lra]. rewrite L2. reflexivity.
    - assert (E : exists q, x = Fin q /\ (q == 1)%Q) by (destruct Hx as [<-|[<-|[<-|[]]]]; eexists; split; reflexivity). destruct E as (q & -> & E).
      cbn [real log_ratio]. rewrite (proj2 (Qeq_bool_iff q 1) E). cbn [real nlog]. rewrite (Qeq_eqR _ _ E), O. destruct (Rlt_dec 0 1); [|lra]. rewrite L0. f_equal. apply real_0. }
  split.
  - assert (R3 : forall i, (i = 3 \/ i = 4)%nat -> exists out, corwin_schultz_running Arith_double log exp root den c 1 "high" "low" (market closes volumes highs lows) = Ok out /\ nth_error out i = Some NaN).
    { intros i Hi. assert (N : exists q, nth_error (@kahan_mean Q Arith_rounded 1 (@kahan_sum Q Arith_rounded 2 (map (fun x => @emul Q Arith_rounded x x) (map log_ratio (zipw (@ediv Q Arith_rounded) (run highs) (run lows)))))) i = Some (Fin q) /\ (q < 0)%Q)
        by (destruct Hi as [-> | ->]; eexists; (split; [vm_compute; reflexivity|reflexivity])).
      destruct N as (q & N & Q0). apply (quiet_row log exp root den c 1 (market closes volumes highs lows) (held highs) (held lows) i (Q2R q)); try reflexivity.
      - destruct Hi as [-> | ->]; cbn; lia.
      - rewrite B, nth_error_map, N. reflexivity.
      - rewrite <- real_0. now apply Qlt_Rlt. }
    destruct (R3 3%nat ltac:(auto)) as (out & E & E3). destruct (R3 4%nat ltac:(auto)) as (out' & E' & E4). rewrite E in E'. injection E' as <-. eauto.
  - set (p := to_double (Q2R (1 # 1))). assert (Hp : 0 < p) by (unfold p; rewrite <- rounded_double, <- real_0; apply Qlt_Rlt; reflexivity).
    destruct (quiet_exact (market closes volumes highs lows) (held highs) (held lows) 2 p Hp) as (out & E & E3); try reflexivity.
    destruct (quiet_exact (market closes volumes highs lows) (held highs) (held lows) 3 p Hp) as (out' & E' & E4); try reflexivity. rewrite E in E'. injection E' as <-. eauto.
Qed.
Print Assumptions C119_quiet_refuted.

(** Cases that meet the hypotheses: the logarithm and exponential of the model of C43, and a price of 0.1 with volumes 1, 1.2, 1.5, 1.7, 0.8. *)
Example C119_oracles : ln 1 = 0 /\ exp 0 = 1 /\ sqrt 0 = 0 /\ (forall a, 0 < a -> 0 < sqrt a) /\ (forall a, 0 <= a -> 1 <= exp a).
Proof.
  split; [apply ln_1|]. split; [apply exp_0|]. split; [apply sqrt_0|]. split; [apply sqrt_lt_R0|]. intros a Ha. rewrite <- exp_0. destruct Ha as [Ha| <-]; [left; now apply exp_increasing|right; reflexivity].
Qed.
Example C119_flat_case : kyle_running Arith_double 3 "close" "volume" (market [1 # 10; 1 # 10; 1 # 10; 1 # 10; 1 # 10] volumes highs lows) = Ok [NaN; NaN; NaN; Fin 0; Fin 0].
Proof.
  apply (C119_flat ln exp sqrt 3 (market [1 # 10; 1 # 10; 1 # 10; 1 # 10; 1 # 10] volumes highs lows) "close" "close" "close" "volume" (to_double (Q2R (1 # 10))) (held volumes) 1 1 1 1 1);
    try lia; try lra; try apply C119_oracles.
  - rewrite <- rounded_double, <- real_0. apply Qlt_Rlt. reflexivity.
  - intros x Hx. unfold held in Hx. apply in_map_iff in Hx as (q & <- & Hq). eexists. split; [reflexivity|]. rewrite <- rounded_double, <- real_0. apply Qlt_Rlt.
    repeat destruct Hq as [<-|Hq]; try reflexivity. destruct Hq.
  - reflexivity.
  - intros name Hn. repeat destruct Hn as [<-|Hn]; try reflexivity. destruct Hn.
Qed.
