(** Which columns the transformers read. *)
From Coq Require Import Reals String.
From Verif Require Import Prelude PreludeFacts Num Series Feat_Model Feat_Proofs2 Columns_Spec.
Open Scope nat_scope.

Lemma has_lookup X n : has X n <-> exists c, lookup n X = Some c.
Proof.
  unfold has, lookup. induction (f_cols X) as [|[m c] l IH]; cbn [map find fst]; [split; [easy|intros (c & H); discriminate]|].
  destruct (String.eqb_spec m n) as [->|Hn]; [split; [intros _; exists c; reflexivity|intros _; now left]|]. rewrite <- IH. cbn [In]. intuition.
Qed.
Lemma hasnt_lookup X n : ~ has X n <-> lookup n X = None.
Proof. rewrite has_lookup. destruct (lookup n X) as [c|]; split; try easy; [intros H; destruct H; eauto|]. intros _ (c & H). discriminate. Qed.

(** The exception for the first missing column. *)
Fixpoint first_missing (cols : list (string * exn)) (X : frame) : option exn :=
  match cols with [] => None | (n, e) :: r => match lookup n X with None => Some e | Some _ => first_missing r X end end.
Lemma first_missing_none cols X : (forall n, In n (map fst cols) -> has X n) -> first_missing cols X = None.
Proof.
  induction cols as [|[n e] r IH]; intros H; [reflexivity|]. cbn [first_missing]. destruct (proj1 (has_lookup X n) (H n (or_introl eq_refl))) as (c & ->). apply IH. intros m Hm. apply H. now right.
Qed.
Lemma first_missing_some before n e after X : (forall m, In m (map fst before) -> has X m) -> ~ has X n -> first_missing (before ++ (n, e) :: after) X = Some e.
Proof.
  intros Hb Hn. induction before as [|[m e'] r IH]; cbn [app first_missing].
  - apply hasnt_lookup in Hn. now rewrite Hn.
  - destruct (proj1 (has_lookup X m) (Hb m (or_introl eq_refl))) as (c & ->). apply IH. intros k Hk. apply Hb. now right.
Qed.
Lemma reads_intro {B} (T : frame -> result B) cols (g : list Z -> list (list (ext R)) -> B) :
  (forall X, T X = match first_missing cols X with Some e => Err e | None => Ok (g (f_index X) (map (fun n => match lookup n X with Some c => c | None => [] end) (map fst cols))) end) ->
  reads T cols.
Proof.
  intros H. split; [|split].
  - intros X Hh. rewrite H, (first_missing_none _ _ Hh). eauto.
  - intros X before n e after -> Hb Hn. rewrite H, (first_missing_some _ _ _ _ _ Hb Hn). reflexivity.
  - intros X X' (Hi & Hc). rewrite !H. assert (E : first_missing cols X = first_missing cols X' /\ map (fun n => match lookup n X with Some c => c | None => [] end) (map fst cols) = map (fun n => match lookup n X' with Some c => c | None => [] end) (map fst cols)).
    { clear H. induction cols as [|[n e] r IH]; [easy|]. cbn [first_missing map fst]. rewrite (Hc n (or_introl eq_refl)). destruct (IH (fun m Hm => Hc m (or_intror Hm))) as (-> & ->). easy. }
    destruct E as (-> & ->). now rewrite Hi.
Qed.
Lemma reads_map {B C} (T : frame -> result B) (f : B -> C) cols : reads T cols -> reads (fun X => do x <- T X ;; Ok (f x)) cols.
Proof.
  intros (H1 & H2 & H3). split; [|split].
  - intros X Hh. destruct (H1 X Hh) as (out & ->). cbn [bind]. eauto.
  - intros X before n e after Hc Hb Hn. now rewrite (H2 X before n e after Hc Hb Hn).
  - intros X X' Ha. now rewrite (H3 X X' Ha).
Qed.

Notation A := AssertionError.
Notation K := KeyError.

(** The columns as variables in order. *)
Ltac cases := repeat match goal with |- context [match lookup ?n ?X with _ => _ end] => destruct (lookup n X) end.
Ltac read g := apply (reads_intro _ _ g); intros X; cbn [first_missing map fst]; unfold column, check_missing_columns; cbn [forallb]; cases; reflexivity.

Lemma local_max_reads w : reads (local_max_to_close w) [("high"%string, K); ("close"%string, K)].
Proof. unfold local_max_to_close. read (fun (_ : list Z) l => match l with [h; c] => zipw ediv (rolling w agg_max h) c | _ => [] end). Qed.
Lemma arrival_reads w : reads (z_score_transform w bar_arrival_time) [].
Proof. unfold z_score_transform, bar_arrival_time. read (fun idx (_ : list (list (ext R))) => calc_z_score w (diff (map (fun t => Fin (IZR t)) idx))). Qed.
Lemma diff_reads w : reads (z_score_transform w buy_sell_diff) [("quote_asset_buy_volume"%string, K); ("quote_asset_sell_volume"%string, K)].
Proof. unfold z_score_transform, buy_sell_diff. read (fun (_ : list Z) l => match l with [b; s] => calc_z_score w (zipw esub b s) | _ => [] end). Qed.
Lemma size_reads w : reads (z_score_transform w average_buy_size) [("quote_asset_buy_volume"%string, K); ("num_buy_ticks"%string, K)].
Proof. unfold z_score_transform, average_buy_size. read (fun (_ : list Z) l => match l with [b; s] => calc_z_score w (zipw ediv b s) | _ => [] end). Qed.
Lemma ratio_reads w : reads (z_score_transform w high_to_low_ratio) [("high"%string, K); ("low"%string, K)].
Proof. unfold z_score_transform, high_to_low_ratio. read (fun (_ : list Z) l => match l with [b; s] => calc_z_score w (zipw ediv b s) | _ => [] end). Qed.

Lemma roll_reads w close : reads (roll_measure w close) [(close, A)].
Proof. unfold roll_measure. read (fun (_ : list Z) l => match l with [c] => map (fun c => emul (Fin 2%R) (esqrt (eabs c))) (rolling_cov w (diff c) (shift1 (diff c))) | _ => [] end). Qed.
Lemma impact_reads w close volume : reads (roll_impact w close volume) [(close, A); (volume, K)].
Proof. unfold roll_impact, roll_measure. read (fun (_ : list Z) l => match l with [c; v] => zipw ediv (map (fun c => emul (Fin 2%R) (esqrt (eabs c))) (rolling_cov w (diff c) (shift1 (diff c)))) v | _ => [] end). Qed.
Lemma parkinson_reads w high low : reads (parkinson w high low) [(high, A); (low, A)].
Proof. unfold parkinson. read (fun (_ : list Z) l => match l with [h; l] => rolling w agg_mean (map (fun r => emul (Fin (1 / (4 * ln 2))%R) (esquare (elog r))) (zipw ediv h l)) | _ => [] end). Qed.
Lemma corwin_reads w high low : reads (corwin_schultz w high low) [(high, A); (low, A)].
Proof. unfold corwin_schultz. read (fun (_ : list Z) l => match l with [h; l] => map (fun a => ediv (emul (Fin 2%R) (esub (eexp a) (Fin 1%R))) (eadd (Fin 1%R) (eexp a))) (get_alpha (get_beta h l w) (get_gamma h l)) | _ => [] end). Qed.
Lemma beckers_reads w high low : reads (beckers_parkinson w high low) [(high, A); (low, A)].
Proof.
  unfold beckers_parkinson. read (fun (_ : list Z) l => match l with [h; l] => map set_negative_to_zero (zipw eadd (map (fun b => ediv (emul (Fin (1 / sqrt 2 - 1)%R) (epow_half b)) (Fin (sqrt (8 / PI) * den_cs)%R)) (get_beta h l w))
    (map (fun g => epow_half (ediv g (Fin (sqrt (8 / PI) * sqrt (8 / PI) * den_cs)%R))) (get_gamma h l))) | _ => [] end).
Qed.
Lemma kyle_reads w close volume : reads (kyle_lambda w close volume) [(close, A); (volume, A)].
Proof. unfold kyle_lambda. read (fun (_ : list Z) l => match l with [c; v] => rolling w agg_mean (zipw ediv (map eabs (diff c)) v) | _ => [] end). Qed.
Lemma amihud_reads w close volume : reads (amihud_lambda w close volume) [(close, A); (volume, A)].
Proof. unfold amihud_lambda. read (fun (_ : list Z) l => match l with [c; v] => rolling w agg_mean (zipw ediv (map eabs (diff (map elog c))) v) | _ => [] end). Qed.
Lemma hasbrouck_reads w close volume : reads (hasbrouck_lambda w close volume) [(close, A); (volume, A)].
Proof. unfold hasbrouck_lambda. read (fun (_ : list Z) l => match l with [c; v] => rolling w agg_mean (zipw ediv (map eabs (diff (map elog c))) (map esqrt v)) | _ => [] end). Qed.

Lemma reads_intro2 {B} (T : frame -> result B) cols :
  (forall X, match first_missing cols X with Some e => T X = Err e | None => exists out, T X = Ok out end) ->
  (forall X X', agree_on (map fst cols) X X' -> T X = T X') -> reads T cols.
Proof.
  intros H1 H2. split; [|split; [|exact H2]].
  - intros X Hh. specialize (H1 X). now rewrite (first_missing_none _ _ Hh) in H1.
  - intros X before n e after -> Hb Hn. specialize (H1 X). now rewrite (first_missing_some _ _ _ _ _ Hb Hn) in H1.
Qed.
Ltac agrees := let X := fresh in let X' := fresh in let Hi := fresh "Hi" in let Hc := fresh "Hc" in
  intros X X' (Hi & Hc); cbn [map fst In] in Hc; unfold column, check_missing_columns; cbn [forallb]; rewrite ?Hi, ?Hc by auto; cases; cbn [bind]; rewrite ?Hi; reflexivity.
Ltac read2 := apply reads_intro2; [intros X; cbn [first_missing]; unfold column, check_missing_columns; cbn [forallb]; cases; first [reflexivity | eexists; reflexivity] | agrees].
Lemma vpin_reads w v b s : reads (vpin w v b s) [(v, A); (b, A); (s, A)].
Proof.
  assert (H : reads (fun X => do _ <- check_missing_columns X [v; b; s] ;;
    do volume <- column v X ;; do buy <- column b X ;; do sell <- column s X ;;
    Ok (fill_from w (zipw ediv (rolling w agg_sum (map eabs (zipw esub buy sell))) (rolling w agg_sum volume)))) [(v, A); (b, A); (s, A)]) by read2.
  destruct H as (H1 & H2 & H3). split; [|split].
  - intros X Hh. rewrite vpin_eq. now apply H1.
  - intros X before n e after. rewrite vpin_eq. apply H2.
  - intros X X'. rewrite !vpin_eq. apply H3.
Qed.
Lemma ma_crossover_reads fast slow fill name : reads (ma_crossover fast slow fill name) [(name, K)].
Proof. unfold ma_crossover. read2. Qed.
Lemma ewma_difference_reads fast slow normalised name : reads (ewma_difference fast slow normalised name) [(name, K)].
Proof. unfold ewma_difference. read2. Qed.
Lemma buy_sell_imbalance_reads fast slow ty : reads (buy_sell_imbalance fast slow ty) [(ty ++ "_asset_buy_volume", K); (ty ++ "_asset_sell_volume", K); (ty ++ "_asset_volume", K)]%string.
Proof. unfold buy_sell_imbalance. read2. Qed.
Lemma macd_reads hist name : reads (macd_crossover hist name) [(name, ValueError)].
Proof. unfold macd_crossover, ta_transform. read2. Qed.
Lemma mean_reversion_reads ema t : reads (mean_reversion_predict ema t) [("close"%string, ValueError)].
Proof. unfold mean_reversion_predict, ta_transform. read2. Qed.
Lemma bar_rsi_reads rsi c : reads (bar_rsi_predict rsi c) [("close"%string, ValueError)].
Proof. unfold bar_rsi_predict, ta_transform. read2. Qed.
Lemma rsi_confirmation_reads rsi t p w : reads (rsi_confirmation_predict rsi t p w) [("close"%string, ValueError)].
Proof. unfold rsi_confirmation_predict, ta_transform. read2. Qed.
Lemma bar_features_read w :
  reads (local_max_to_close w) [("high", K); ("close", K)]%string /\
  (forall T, get_transformer "bar_arrival_time" w = Ok T -> reads T []) /\
  (forall T, get_transformer "buy_sell_diff" w = Ok T -> reads T [("quote_asset_buy_volume", K); ("quote_asset_sell_volume", K)]%string) /\
  (forall T, get_transformer "average_buy_size" w = Ok T -> reads T [("quote_asset_buy_volume", K); ("num_buy_ticks", K)]%string) /\
  (forall T, get_transformer "high_to_low_ratio" w = Ok T -> reads T [("high", K); ("low", K)]%string).
Proof.
  split; [apply local_max_reads|]. split; [|split; [|split]]; intros T [= <-]; [apply arrival_reads|apply diff_reads|apply size_reads|apply ratio_reads].
Qed.
