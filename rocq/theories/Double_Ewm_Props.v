(** C118: daily volatility and exponential averages in double precision. *)
From Coq Require Import Reals ZArith QArith Qreals Lra Lia List String.
From Verif Require Import Prelude PreludeFacts Num Series Boot_Model DailyVol_Model Feat_Model Ewm_Model Ewm_Proofs
  Double_Model Double_Spec Double_Proofs Double_Proofs2 Rounding_Arith_Proofs Double_Vpin_Model Double_Z_Model Double_Z_Proofs Double_Ewm_Model Double_Ewm_Proofs Double_Ewm_Proofs2.
Import ListNotations.
Local Open Scope R_scope.
Local Notation length := List.length.

(** In exact arithmetic the running updates give the daily volatility of C31 and the averages of C40. *)
Theorem C118_exact : forall span idx close, 1 <= span ->
  daily_vol_running Arith_R sqrt span idx close = get_daily_vol (ewm_std span) idx close.
Proof.
  intros span idx close H. unfold daily_vol_running, get_daily_vol. destruct (daily_returns idx close) as [r|]; [|reflexivity]. cbn [bind].
  now rewrite ewmstd_exact, ewmstd_run_eq.
Qed.
Print Assumptions C118_exact.
Theorem C118_average_exact : forall fast slow normalised name X, 1 <= fast -> 1 <= slow ->
  ewma_difference_running Arith_R fast slow normalised name X = ewma_difference fast slow normalised name X.
Proof.
  intros fast slow normalised name X Hf Hs. unfold ewma_difference_running, ewma_difference. destruct (column name X) as [c|]; [|reflexivity]. cbn [bind].
  rewrite !ewma_exact, !ewma_run_eq by assumption. reflexivity.
Qed.
Print Assumptions C118_average_exact.

(** In doubles, whatever the returns, missing or infinite ones too: a deviation is missing or a number that is not negative, never infinite. *)
Theorem C118_not_negative : forall span l x, 1 <= span -> In x (@ewmstd_running R Arith_double double_root span l) -> x = NaN \/ exists v, x = Fin v /\ 0 <= v.
Proof. intros span l x H. revert x. apply Forall_forall. now apply c118_not_negative. Qed.
Print Assumptions C118_not_negative.

(** Without missing returns every row but the first has a value. *)
Theorem C118_defined : forall span l k, 2 <= span -> (forall x, In x l -> exists c, x = Fin c) -> (S k < length l)%nat ->
  exists v, nth_error (@ewmstd_running R Arith_double double_root span l) (S k) = Some (Fin v) /\ 0 <= v.
Proof.
  intros span l k Hs Hl Hk. destruct (nth_error (@ewmstd_running R Arith_double double_root span l) (S k)) as [x|] eqn:E.
  - destruct (c118_defined span l k x Hs Hl E) as (v & -> & Hv). now exists v.
  - apply nth_error_None in E. rewrite c118_length in E. lia.
Qed.
Print Assumptions C118_defined.

(** A flat market, the price being any number but 0: the daily volatility is missing or exactly 0, and exactly 0 from the second row if no price is
    missing. *)
Theorem C118_flat : forall span idx close p r, p <> 0 -> (forall x, In x close -> x = NaN \/ x = Fin p) ->
  daily_vol_running Arith_double double_root span idx close = Ok r -> forall t v, In (t, v) r -> v = NaN \/ v = Fin 0.
Proof.
  intros span idx close p r Hp Hc E t v Hin. assert (F : Forall (missing_or p) close) by now apply Forall_forall.
  pose proof (c118_flat_market span idx close p r Hp F E) as G. rewrite Forall_forall in G. apply G. apply in_map_iff. exists (t, v). now split.
Qed.
Print Assumptions C118_flat.
Theorem C118_flat_prices : forall span idx close p r, 2 <= span -> p <> 0 -> (forall x, In x close -> x = Fin p) ->
  daily_vol_running Arith_double double_root span idx close = Ok r -> forall k t v, nth_error r (S k) = Some (t, v) -> v = Fin 0.
Proof. intros span idx close p r Hs Hp Hc E k t v. apply (c118_flat_prices span idx close p); auto. now apply Forall_forall. Qed.
Print Assumptions C118_flat_prices.

(** The difference of two exponential averages of such a series is missing or exactly 0. *)
Theorem C118_average_flat : forall fast slow normalised name X c p out, lookup name X = Some c -> (forall x, In x c -> x = NaN \/ x = Fin p) ->
  ewma_difference_running Arith_double fast slow normalised name X = Ok out -> forall v, In v out -> v = NaN \/ v = Fin 0.
Proof.
  intros fast slow normalised name X c p out Hl Hc E. assert (F : Forall (missing_or p) c) by now apply Forall_forall.
  unfold ewma_difference_running, column in E. rewrite Hl in E. cbn [bind] in E. injection E as <-.
  assert (M : forall span, Forall (missing_or p) (@ewma_double R Arith_double span c)) by (intros; apply ewma_level; [exact F|discriminate]).
  assert (D : Forall (missing_or 0) (zipw (@esub R Arith_double) (@ewma_double R Arith_double fast c) (@ewma_double R Arith_double slow c))).
  { apply Forall_forall. intros x Hx. unfold zipw in Hx. apply in_map_iff in Hx as ([a b] & <- & Hin). cbn [fst snd]. pose proof (M fast) as Mf. pose proof (M slow) as Ms. rewrite Forall_forall in Mf, Ms.
    destruct (Mf a (in_combine_l _ _ _ _ Hin)) as [-> | ->]; [now left|]. destruct (Ms b (in_combine_r _ _ _ _ Hin)) as [-> | ->]; [now left|]. right.
    cbn [esub eadd eopp]. f_equal. apply sub_same. }
  destruct normalised; [|now apply Forall_forall]. intros v Hv. unfold zipw at 1 in Hv. apply in_map_iff in Hv as ([a b] & <- & Hin). cbn [fst snd].
  rewrite Forall_forall in D. destruct (D a (in_combine_l _ _ _ _ Hin)) as [-> | ->]; [now left|]. apply in_combine_r in Hin. apply in_map_iff in Hin as (y & <- & Hy).
  pose proof (M fast) as Mf. rewrite Forall_forall in Mf. destruct (Mf y Hy) as [-> | ->]; [now left|]. cbn [eadd]. unfold ediv. cbn [aeqb a0 Arith_double].
  destruct (Req_EM_T _ 0); [left; unfold asign; cbn [altb a0 Arith_double]; destruct (Rlt_dec 0 0); [lra|reflexivity]|]. right. f_equal. apply div_0.
Qed.
Print Assumptions C118_average_flat.

(** A single return followed by missing ones has no deviation in exact arithmetic. With the default span of 100 it is computed as 0 in doubles, eight
    rows later: the volatility of the bar is 0. *)
Theorem C118_one_return_refuted : forall x,
  nth_error (@ewmstd_running R Arith_double double_root 100 (Fin x :: repeat NaN 8)) 8 = Some (Fin 0) /\
  nth_error (ewm_std 100 (Fin x :: repeat NaN 8)) 8 = Some NaN.
Proof. intros x. split; [apply c118_one_return|apply (one_return_exact 100 8 x); lra]. Qed.
Print Assumptions C118_one_return_refuted.

(** The same from prices: a bar every two days, the price known in the first two only. *)
Definition gap_times : list Z := map (fun k => Z.of_nat k * (2 * one_day))%Z (seq 0 10).
Definition gap_prices : list (ext R) := (Fin 100 :: Fin 101 :: repeat NaN 8)%R.
Theorem C118_missing_prices_refuted : exists r r', daily_vol_running Arith_double double_root 100 gap_times gap_prices = Ok r /\
  get_daily_vol (ewm_std 100) gap_times gap_prices = Ok r' /\ exists t, nth_error r 8 = Some (t, Fin 0) /\ nth_error r' 8 = Some (t, NaN).
Proof.
  assert (G : forall (N : Arith R), N = Arith_double \/ N = Arith_R -> exists x ts, length ts = 9%nat /\ nth_error ts 8 = Some (9 * (2 * one_day))%Z /\
    @daily_returns R N gap_times gap_prices = Ok (combine ts (Fin x :: repeat NaN 8))).
  { intros N HN. exists (@aadd R N (@adiv R N 101 100) (@aopp R N (@a1 R N))), (skipn 1 gap_times). split; [reflexivity|]. split; [reflexivity|].
    unfold daily_returns. replace (map (fun t => searchsorted gap_times (t - one_day)) gap_times) with (seq 0 10) by (vm_compute; reflexivity).
    replace (filter (fun p => Nat.ltb 0 p) (seq 0 10)) with (seq 1 9) by reflexivity.
    replace (mapM (fun p => get gap_times (p - 1)) (seq 1 9)) with (Ok (firstn 9 gap_times)) by (vm_compute; reflexivity). cbn [bind].
    change (length gap_times - length (seq 1 9))%nat with 1%nat.
    replace (mapM (loc_value gap_times gap_prices) (skipn 1 gap_times)) with (Ok (Fin 101%R :: repeat NaN 8)) by reflexivity. cbn [bind].
    replace (mapM (loc_value gap_times gap_prices) (firstn 9 gap_times)) with (Ok (Fin 100%R :: Fin 101%R :: repeat NaN 7)) by reflexivity. cbn [bind].
    f_equal. f_equal. cbn [zipw combine repeat map fst snd]. f_equal. unfold ediv, zipw. cbn [combine map fst snd].
    destruct HN as [-> | ->]; cbn [aeqb a0 Arith_double Arith_R]; (destruct (Req_EM_T 100 0) as [?|_]; [lra|reflexivity]). }
  destruct (G Arith_double (or_introl eq_refl)) as (x & ts & L & T & D). destruct (G Arith_R (or_intror eq_refl)) as (x' & ts' & L' & T' & D').
  unfold daily_vol_running, get_daily_vol. rewrite D, D'. cbn [bind]. do 2 eexists. split; [reflexivity|]. split; [reflexivity|]. exists (9 * (2 * one_day))%Z.
  assert (C : forall (us : list Z) (l : list (ext R)) i u v, nth_error us i = Some u -> nth_error l i = Some v -> nth_error (combine us l) i = Some (u, v)).
  { clear. induction us as [|a us IH]; intros [|b l] [|i] u v A B; try discriminate; cbn in *; [congruence|now apply IH]. }
  assert (S1 : forall (us : list Z) (l : list (ext R)), length us = length l -> map snd (combine us l) = l /\ map fst (combine us l) = us).
  { clear. induction us as [|a us IH]; intros [|b l] E; try discriminate; [now split|]. injection E as E. destruct (IH l E). cbn. split; now f_equal. }
  destruct (S1 ts (Fin x :: repeat NaN 8) ltac:(rewrite L; reflexivity)) as [-> ->]. destruct (S1 ts' (Fin x' :: repeat NaN 8) ltac:(rewrite L'; reflexivity)) as [-> ->].
  split; (apply C; [assumption|]); [apply c118_one_return|apply (one_return_exact 100 8 x'); lra].
Qed.
Print Assumptions C118_missing_prices_refuted.

(** A case that meets the hypotheses: a decimal price, bars every two days. *)
Example C118_flat_case : exists r, daily_vol_running Arith_double double_root 100 gap_times (repeat (Fin (to_double (1013 / 10))) 10) = Ok r /\
  to_double (1013 / 10) <> 0 /\ length r = 9%nat.
Proof.
  assert (N : to_double (1013 / 10) <> 0) by (assert (1 <= to_double (1013 / 10)) by (apply to_double_ge_double; [apply is_double_1|lra]); lra).
  revert N. generalize (to_double (1013 / 10)) as p. intros p N. eexists. split; [|split; [exact N|]].
  - unfold daily_vol_running, get_daily_vol, daily_returns. replace (map (fun t => searchsorted gap_times (t - one_day)) gap_times) with (seq 0 10) by (vm_compute; reflexivity).
    replace (filter (fun p => Nat.ltb 0 p) (seq 0 10)) with (seq 1 9) by reflexivity.
    replace (mapM (fun p => get gap_times (p - 1)) (seq 1 9)) with (Ok (firstn 9 gap_times)) by (vm_compute; reflexivity). cbn [bind].
    change (length gap_times - length (seq 1 9))%nat with 1%nat.
    replace (mapM (loc_value gap_times (repeat (Fin p) 10)) (skipn 1 gap_times)) with (Ok (repeat (Fin p) 9)) by reflexivity. cbn [bind].
    replace (mapM (loc_value gap_times (repeat (Fin p) 10)) (firstn 9 gap_times)) with (Ok (repeat (Fin p) 9)) by reflexivity. cbn [bind]. reflexivity.
  - rewrite combine_length, c118_length, !map_length, combine_length, map_length. reflexivity.
Qed.
