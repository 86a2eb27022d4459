(** C90: only the order of the times matters, not the clock they are read from. *)
From Coq Require Import Reals QArith Lia String.
From Verif Require Import PreludeFacts Series QSum CV_Model Boot_Model DailyVol_Model Weights_Model Cusum_Model Label_Model.
From Verif Require Import Order_Spec Order_Spec2 Order_Spec3 Order_Proofs Order_Proofs2 Order_Proofs3.
From Verif Require Trend_Model.
Local Open Scope nat_scope.

(** ** Any change of clock that keeps the order *)

(** The overlap of labels, for labels in any order, with missing times and with any bars. *)
Theorem C90_indicator_matrix : forall f, keeps_order f -> forall samples bars,
  get_ind_matrix (map (retime_sample f) samples) (map f bars) = on_ok (fun mi => (fst mi, map f (snd mi))) (get_ind_matrix samples bars).
Proof. exact ind_matrix_retimed. Qed.
Print Assumptions C90_indicator_matrix.

Theorem C90_average_uniqueness : forall f, keeps_order f -> forall X,
  average_uniqueness_transform (map (retime_span f) X) = on_ok (map (retime_row f)) (average_uniqueness_transform X).
Proof. exact uniqueness_retimed. Qed.
Print Assumptions C90_average_uniqueness.

Theorem C90_time_decay : forall f, keeps_order f -> forall c X,
  decay_transform c (map (retime_span f) X) = on_ok (map (retime_row f)) (decay_transform c X).
Proof. exact decay_retimed. Qed.
Print Assumptions C90_time_decay.

Theorem C90_events : forall f, keeps_order f -> forall (h : Q) X, cusum_transform h (map (retime_row f) X) = on_ok (map f) (cusum_transform h X).
Proof. exact cusum_retimed. Qed.
Print Assumptions C90_events.

Theorem C90_trends : forall f, keeps_order f -> forall inv junk cfg events y,
  Trend_Model.transform inv junk cfg (option_map (map f) events) (map (retime_row f) y) =
  (option_map (map f) (fst (Trend_Model.transform inv junk cfg events y)), on_ok (map (retime_trend f)) (snd (Trend_Model.transform inv junk cfg events y))).
Proof. exact trend_retimed. Qed.
Print Assumptions C90_trends.

(** Splits and backtest paths, when the embargo is measured by the same clock: an embargo of e after the old time t is an
    embargo of e' after the new one. Without an embargo this is so for every clock. *)
Theorem C90_splits : forall f, keeps_order f -> forall e e', (forall t, f (t + e) = f t + e')%Z -> forall c, embargo_td c = e -> forall n,
  split (retime_cv f e' c) n = split c n.
Proof. exact split_retimed. Qed.
Print Assumptions C90_splits.
Theorem C90_paths : forall f, keeps_order f -> forall e e', (forall t, f (t + e) = f t + e')%Z -> forall c, embargo_td c = e -> forall n shuf,
  cv_paths (retime_cv f e' c) n shuf = cv_paths c n shuf.
Proof. exact paths_retimed. Qed.
Print Assumptions C90_paths.

(** A clock that is twice as fast and starts elsewhere, and one without any regularity (no embargo then). *)
Example C90_clocks :
  (keeps_order (fun t => 2 * t + 7)%Z /\ forall t, (2 * (t + 3) + 7 = 2 * t + 7 + 6)%Z) /\
  (keeps_order (fun t => t * t * t)%Z /\ forall t, ((t + 0) * (t + 0) * (t + 0) = t * t * t + 0)%Z).
Proof.
  split; split; unfold keeps_order.
  - intros a b H. lia.
  - intros t. ring.
  - intros a b H. assert (0 < (b - a) * (4 * (a * a + a * b + b * b)))%Z; [|lia].
    apply Z.mul_pos_pos; [lia|]. replace (4 * (a * a + a * b + b * b))%Z with ((2 * a + b) * (2 * a + b) + 3 * (b * b))%Z by ring.
    assert (0 <= (2 * a + b) * (2 * a + b))%Z by apply Z.square_nonneg. assert (0 <= b * b)%Z by apply Z.square_nonneg.
    assert ((2 * a + b) * (2 * a + b) + 3 * (b * b) <> 0)%Z; [|lia]. intros E. assert (b * b = 0)%Z as E1 by lia. apply Z.mul_eq_0 in E1.
    assert (b = 0)%Z as -> by lia. rewrite Z.mul_0_r, !Z.add_0_r in E. apply Z.mul_eq_0 in E. lia.
  - intros t. ring.
Qed.
Example C90_uniqueness_case :
  average_uniqueness_transform [(1, Some 3); (2, Some 4); (4, Some 5)]%Z = Ok [(1%Z, Some (8 # 12)%Q); (2%Z, Some (12 # 24)%Q); (4%Z, Some (3 # 4)%Q)] /\ average_uniqueness_transform [(1, Some 27); (8, Some 64); (64, Some 125)]%Z = Ok [(1%Z, Some (8 # 12)%Q); (8%Z, Some (12 # 24)%Q); (64%Z, Some (3 # 4)%Q)].
Proof. split; vm_compute; reflexivity. Qed.

(** ** Moving everything by a whole number of milliseconds *)

(** Labels and volatilities, also with one day as unit. A bar at millisecond 0 of 1970 is excluded: there the code takes the
    time of a hit barrier for no hit. *)
Theorem C90_daily_volatility_moved : forall A (HA : Arith A) k std idx (close : list (ext A)),
  get_daily_vol std (map (later k) idx) close = on_ok (map (retime_row (later k))) (get_daily_vol std idx close).
Proof. exact (@daily_vol_moved). Qed.
Print Assumptions C90_daily_volatility_moved.
Theorem C90_labels_moved : forall A (HA : Arith A) k std order (cfg : config A) y,
  (forall t, In t (f_index y) -> to_ms t <> 0%Z /\ to_ms (later k t) <> 0%Z) ->
  transform (get_daily_vol std) order cfg (moved_bars k y) = on_ok (map (moved_label k)) (transform (get_daily_vol std) order cfg y).
Proof. exact (@labels_moved). Qed.
Print Assumptions C90_labels_moved.
Theorem C90_return_weights_moved : forall k X, returns_transform (map (moved_row k) X) = on_ok (map (retime_row (later k))) (returns_transform X).
Proof. exact weights_moved. Qed.
Print Assumptions C90_return_weights_moved.
Definition c90_cfg : config Q :=
  {| n_expiration_bars := 2; profit_taking_factor := 1 # 10; stop_loss_factor := 1 # 10; metalabeling := false; close_column := "close"%string;
     side_column := "side"%string; volatility_adjusted := false; expiration_label := false |}.
Definition c90_bars : frame Q :=
  {| f_index := map (fun m => m * 1000000)%Z [5; 6; 8; 9]%Z; f_cols := [("close"%string, [Fin 10; Fin 12; Fin 11; Fin 9]%Q)] |}.
Example C90_labels_case :
  (forall t, In t (f_index c90_bars) -> to_ms t <> 0%Z /\ to_ms (later 100 t) <> 0%Z) /\
  on_ok (map o_end) (transform (get_daily_vol (fun l => l)) [0; 1; 2; 3] c90_cfg c90_bars) = Ok (map (option_map (fun m => m * 1000000)%Z) [Some 6; Some 9; None; None]%Z) /\
  on_ok (map o_end) (transform (get_daily_vol (fun l => l)) [0; 1; 2; 3] c90_cfg (moved_bars 100 c90_bars)) = Ok (map (option_map (fun m => m * 1000000)%Z) [Some 106; Some 109; None; None]%Z).
Proof.
  split; [|split; vm_compute; reflexivity]. cbn. intros t H. repeat destruct H as [<-|H]; try contradiction; split; vm_compute; discriminate.
Qed.
