(** C25-C31: the triple-barrier labelling and its daily volatility. *)
From Coq Require Import Permutation String QArith Reals.
From Verif Require Import PreludeFacts Series Causal Boot_Model DailyVol_Model Weights_Model Label_Model Label_Spec
  DailyVol_Proofs DailyVol_Spec DailyVol_Proofs2 Label_Proofs Label_Proofs2 Label_Proofs3 Label_Proofs4.
Local Open Scope nat_scope.

(** ** C25: first touch *)

(** The barrier scan on arrays: the recorded time is the least touching time, or 0 when there is none. *)
Theorem C25_first_touch : forall (A : Type) (HA : Arith A) (expiry index : list Z) (close side sl pt : list (ext A)),
  length close = length index -> length expiry = length index -> length side = length index ->
  length sl = length index -> length pt = length index ->
  forall order i e s b1 b2, Permutation order (seq 0 (length index)) ->
  nth_error expiry i = Some e -> nth_error side i = Some s -> nth_error sl i = Some b1 -> nth_error pt i = Some b2 ->
  let h := get_horizontal_barriers_hit order expiry index close side sl pt in
  (exists v, nth_error (h_sl h) i = Some v /\
     (least (touch index close i e s (fun r => eltb r b1)) v \/
      ((forall t, ~ touch index close i e s (fun r => eltb r b1) t) /\ v = 0%Z))) /\
  (exists v, nth_error (h_pt h) i = Some v /\
     (least (touch index close i e s (fun r => eltb b2 r)) v \/
      ((forall t, ~ touch index close i e s (fun r => eltb b2 r) t) /\ v = 0%Z))).
Proof. exact @c25. Qed.
Print Assumptions C25_first_touch.

(** The barrier table: vertical, stop-loss and profit-taking times. *)
Theorem C25_barrier_table : forall (A : Type) (HA : Arith A) order idx (close vol side : list (ext A)) n sp pt sl bs i b w s e,
  valid_times idx -> length close = length idx -> length vol = length idx -> length side = length idx ->
  Permutation order (seq 0 (length idx)) ->
  triple_barrier_labeling order idx close (shift_times n idx) vol side sp pt sl = Ok bs -> nth_error bs i = Some b ->
  nth_error vol i = Some w -> nth_error side i = Some s -> search_end idx n i e ->
  (forall t, b_vertical b = Some t <-> vertical idx n i t) /\
  (forall t, b_stop b = Some t <-> least (touch idx close i e s (below_stop sl w)) t) /\
  (forall t, b_profit b = Some t <-> least (touch idx close i e s (above_profit pt w)) t).
Proof. exact @c25_times. Qed.
Print Assumptions C25_barrier_table.

(** A factor that is not positive switches the barrier off. *)
Theorem C25_no_barrier : forall (A : Type) (HA : Arith A) order idx (close vol side : list (ext A)) n sp pt sl bs i b,
  valid_times idx -> length close = length idx -> length vol = length idx -> length side = length idx ->
  Permutation order (seq 0 (length idx)) ->
  triple_barrier_labeling order idx close (shift_times n idx) vol side sp pt sl = Ok bs -> nth_error bs i = Some b ->
  (altb a0 sl = false -> b_stop b = None) /\ (altb a0 pt = false -> b_profit b = None).
Proof. exact @c25_no_stop. Qed.
Print Assumptions C25_no_barrier.

Definition fq (l : list Q) : list (ext Q) := map (@Fin Q) l.
(** Prices 100, 101, 94, 110, 90 at times 10..50; the first event ends at 50; stop at -5%, profit at 5%. *)
Example C25_case :
  let h := get_horizontal_barriers_hit [0; 1; 2; 3; 4] [50; 50; 50; 50; 50]%Z [10; 20; 30; 40; 50]%Z
    (fq [100; 101; 94; 110; 90]%Q) (fq [1; 1; 1; 1; -1]%Q) (fq [-1 # 20; -1 # 20; -1 # 20; -1 # 20; -1 # 20]%Q)
    (fq [1 # 20; 1 # 20; 1 # 20; 1 # 20; 1 # 20]%Q) in
  h_sl h = [30; 30; 0; 0; 0]%Z /\ h_pt h = [40; 40; 40; 0; 0]%Z.
Proof. vm_compute. auto. Qed.

(** ** C26: independence of the schedule *)

Theorem C26_schedule_independent : forall (A : Type) (HA : Arith A) (expiry index : list Z) (close side sl pt : list (ext A)),
  length close = length index -> length expiry = length index -> length side = length index ->
  length sl = length index -> length pt = length index ->
  forall order order', Permutation order order' ->
  get_horizontal_barriers_hit order expiry index close side sl pt =
  get_horizontal_barriers_hit order' expiry index close side sl pt.
Proof. exact @c26. Qed.
Print Assumptions C26_schedule_independent.

(** The whole transformer, errors included. *)
Theorem C26_transform_schedule_independent : forall (A : Type) (HA : Arith A) daily_vol order order' (cfg : config A) (y : frame A),
  well_formed y -> Permutation order order' -> transform daily_vol order cfg y = transform daily_vol order' cfg y.
Proof. exact @transform_order. Qed.
Print Assumptions C26_transform_schedule_independent.

Example C26_case :
  let run order := get_horizontal_barriers_hit order [50; 50; 50; 50; 50]%Z [10; 20; 30; 40; 50]%Z
    (fq [100; 101; 94; 110; 90]%Q) (fq [1; 1; 1; 1; -1]%Q) (fq [-1 # 20; -1 # 20; -1 # 20; -1 # 20; -1 # 20]%Q)
    (fq [1 # 20; 1 # 20; 1 # 20; 1 # 20; 1 # 20]%Q) in
  run [3; 1; 4; 0; 2] = run [0; 1; 2; 3; 4] /\ h_sl (run [3; 1; 4; 0; 2]) = [30; 30; 0; 0; 0]%Z.
Proof. vm_compute. auto. Qed.

(** ** C27: the event end *)

Theorem C27_first_of_three : forall (A : Type) (HA : Arith A) daily_vol order (cfg : config A) y close out i o s,
  valid_times (f_index y) -> well_formed y -> Permutation order (seq 0 (length (f_index y))) ->
  column y (close_column cfg) = Some close -> event_side y i s ->
  transform daily_vol order cfg y = Ok out -> nth_error out i = Some o -> is_nan (o_vol o) = false ->
  forall t, o_end o = Some t <->
    least (barrier_time (f_index y) close i (n_expiration_bars cfg) (profit_taking_factor cfg) (stop_loss_factor cfg) (o_vol o) s) t.
Proof. exact @c27. Qed.
Print Assumptions C27_first_of_three.

Theorem C27_bounds : forall (A : Type) (HA : Arith A) daily_vol order (cfg : config A) y out i o t t0,
  valid_times (f_index y) -> well_formed y -> Permutation order (seq 0 (length (f_index y))) ->
  (0 <= n_expiration_bars cfg)%Z ->
  transform daily_vol order cfg y = Ok out -> nth_error out i = Some o -> o_end o = Some t ->
  nth_error (f_index y) i = Some t0 ->
  In t (f_index y) /\ (t0 <= t)%Z /\ (forall v, vertical (f_index y) (n_expiration_bars cfg) i v -> (t <= v)%Z).
Proof. exact @c27_bounds. Qed.
Print Assumptions C27_bounds.

Theorem C27_missing_volatility : forall (A : Type) (HA : Arith A) daily_vol order (cfg : config A) y out i o,
  valid_times (f_index y) -> well_formed y -> Permutation order (seq 0 (length (f_index y))) ->
  transform daily_vol order cfg y = Ok out -> nth_error out i = Some o -> is_nan (o_vol o) = true ->
  o_end o = None /\ o_return o = NaN /\ o_label o = NaN.
Proof. exact @c27_novol. Qed.
Print Assumptions C27_missing_volatility.

(** On well-formed input with accepted parameters the transformer returns one row per bar. When meta-labelling, some event has
    to end: otherwise it fails. *)
Theorem C27_succeeds : forall (A : Type) (HA : Arith A) daily_vol order (cfg : config A) y close,
  valid_times (f_index y) -> well_formed y -> Permutation order (seq 0 (length (f_index y))) -> f_index y <> [] ->
  column y (close_column cfg) = Some close -> side_column cfg = "side"%string ->
  (metalabeling cfg = true -> column y "side"%string <> None) ->
  (altb (profit_taking_factor cfg) a0 && altb (stop_loss_factor cfg) a0 = false)%bool ->
  (volatility_adjusted cfg = true -> exists v, daily_vol (f_index y) close = Ok v) ->
  ((metalabeling cfg = true -> some_end daily_vol cfg y close) ->
    exists out, transform daily_vol order cfg y = Ok out /\ length out = length (f_index y)) /\
  (metalabeling cfg = true -> ~ some_end daily_vol cfg y close -> transform daily_vol order cfg y = Err ValueError).
Proof. exact @transform_outcome. Qed.
Print Assumptions C27_succeeds.

Definition case_cfg : config Q :=
  {| n_expiration_bars := 3; profit_taking_factor := 1 # 20; stop_loss_factor := 1 # 20; metalabeling := false;
     close_column := "close"; side_column := "side"; volatility_adjusted := false; expiration_label := false |}.
Definition case_meta : config Q :=
  {| n_expiration_bars := 3; profit_taking_factor := 1 # 20; stop_loss_factor := 0%Q; metalabeling := true;
     close_column := "close"; side_column := "side"; volatility_adjusted := false; expiration_label := true |}.
Definition case_idx : list Z := map (fun k => k * 1000000)%Z [10; 20; 30; 40; 50; 60]%Z.
Definition case_frame : frame Q := {| f_index := case_idx; f_cols := [("close"%string, fq [100; 101; 94; 110; 90; 80]%Q)] |}.
Definition case_sided : frame Q :=
  {| f_index := case_idx; f_cols := [("close"%string, fq [100; 101; 94; 110; 90; 80]%Q); ("side"%string, fq [1; -1; 1; -1; 1; 1]%Q)] |}.
Definition no_vol : list Z -> list (ext Q) -> result (list (Z * ext Q)) := fun _ _ => Err KeyError.
Definition ends_and_labels (r : result (list (out_row Q))) : option (list (option Z * ext Q)) :=
  match r with
  | Ok out => Some (map (fun o => (option_map to_ms (o_end o), match o_label o with Fin q => Fin (Qred q) | x => x end)) out)
  | Err _ => None
  end.

Example C27_case_valid : valid_times (f_index case_frame) /\ well_formed case_frame /\ well_formed case_sided.
Proof.
  assert (H : forall y : frame Q, forallb (fun c => Nat.eqb (length (snd c)) (length (f_index y))) (f_cols y) = true -> well_formed y).
  { intros y Hy name col Hc. unfold column in Hc. destruct (find _ (f_cols y)) as [c|] eqn:E; [|discriminate].
    injection Hc as <-. apply find_some in E. rewrite forallb_forall in Hy. apply Nat.eqb_eq, Hy, E. }
  split; [|split; apply H; reflexivity]. split; [unfold increasingZ, case_frame, case_idx; cbn; repeat constructor; lia|].
  intros t Ht. cbn in Ht. repeat destruct Ht as [<-|Ht]; try contradiction; split; reflexivity.
Qed.
Example C27_case : ends_and_labels (transform no_vol [5; 4; 3; 2; 1; 0] case_cfg case_frame) =
  Some [(Some 30%Z, Fin (-1 # 1)%Q); (Some 30%Z, Fin (-1 # 1)%Q); (Some 40%Z, Fin 1%Q); (Some 50%Z, Fin (-1 # 1)%Q); (None, NaN); (None, NaN)].
Proof. vm_compute. reflexivity. Qed.

(** With more expiration bars than bars and no horizontal barrier nothing ends: fine without meta-labels, an error with them. *)
Definition case_endless (meta : bool) : config Q :=
  {| n_expiration_bars := 6; profit_taking_factor := 0%Q; stop_loss_factor := 0%Q; metalabeling := meta;
     close_column := "close"; side_column := "side"; volatility_adjusted := false; expiration_label := false |}.
Example C27_case_endless : ends_and_labels (transform no_vol [0; 1; 2; 3; 4; 5] (case_endless false) case_sided) = Some (repeat (None, NaN) 6) /\
  transform no_vol [0; 1; 2; 3; 4; 5] (case_endless true) case_sided = Err ValueError.
Proof. vm_compute. auto. Qed.

(** ** C28: returns and labels *)

Theorem C28_return_and_label : forall (A : Type) (HA : Arith A) daily_vol order (cfg : config A) y close out i o s t,
  valid_times (f_index y) -> well_formed y -> Permutation order (seq 0 (length (f_index y))) ->
  column y (close_column cfg) = Some close -> event_side y i s ->
  transform daily_vol order cfg y = Ok out -> nth_error out i = Some o -> o_end o = Some t ->
  exists p c0 c, nth_error (f_index y) p = Some t /\ nth_error close i = Some c0 /\ nth_error close p = Some c /\
    let r := if metalabeling cfg then emul (esub (ediv c c0) (Fin a1)) s else esub (ediv c c0) (Fin a1) in
    let hit := touched (f_index y) close i (n_expiration_bars cfg) (profit_taking_factor cfg) (stop_loss_factor cfg) (o_vol o) s in
    o_return o = r /\
    (expiration_label cfg = true -> ~ hit -> o_label o = Fin a0) /\
    (expiration_label cfg = false \/ hit -> o_label o = if metalabeling cfg then success_label r else sign_label r).
Proof. exact @c28. Qed.
Print Assumptions C28_return_and_label.

Theorem C28_no_end : forall (A : Type) (HA : Arith A) daily_vol order (cfg : config A) y out i o,
  valid_times (f_index y) -> well_formed y -> Permutation order (seq 0 (length (f_index y))) ->
  transform daily_vol order cfg y = Ok out -> nth_error out i = Some o -> o_end o = None ->
  o_return o = NaN /\ o_label o = NaN.
Proof. exact @c28_noend. Qed.
Print Assumptions C28_no_end.

Example C28_case : ends_and_labels (transform no_vol [5; 4; 3; 2; 1; 0] case_meta case_sided) =
  Some [(Some 40%Z, Fin 0%Q); (Some 30%Z, Fin 1%Q); (Some 40%Z, Fin 1%Q); (Some 50%Z, Fin 1%Q); (None, NaN); (None, NaN)].
Proof. vm_compute. reflexivity. Qed.

(** ** C29: later rows do not matter *)

(** Two inputs that agree up to the vertical barrier of event [i]: its rows of output are equal, when its volatility is. *)
Theorem C29_same_row : forall (A : Type) (HA : Arith A) daily_vol daily_vol' order order' (cfg : config A) y y' out out' i q (o o' : out_row A),
  valid_times (f_index y) -> valid_times (f_index y') -> well_formed y -> well_formed y' ->
  Permutation order (seq 0 (length (f_index y))) -> Permutation order' (seq 0 (length (f_index y'))) ->
  (0 <= n_expiration_bars cfg)%Z -> Z.of_nat q = (Z.of_nat i + n_expiration_bars cfg)%Z ->
  q < length (f_index y) -> q < length (f_index y') -> agree_until (S q) y y' ->
  transform daily_vol order cfg y = Ok out -> transform daily_vol' order' cfg y' = Ok out' ->
  nth_error out i = Some o -> nth_error out' i = Some o' -> o_vol o = o_vol o' -> o = o'.
Proof. exact @c29. Qed.
Print Assumptions C29_same_row.

(** With the volatility of the code, the volatility is equal too. *)
Theorem C29_same_row_daily_vol : forall span order order' (cfg : config R) y y' out out' i q,
  valid_times (f_index y) -> valid_times (f_index y') -> well_formed y -> well_formed y' ->
  Permutation order (seq 0 (length (f_index y))) -> Permutation order' (seq 0 (length (f_index y'))) ->
  (0 <= n_expiration_bars cfg)%Z -> Z.of_nat q = (Z.of_nat i + n_expiration_bars cfg)%Z ->
  q < length (f_index y) -> q < length (f_index y') -> agree_until (S q) y y' ->
  transform (get_daily_vol (ewm_std span)) order cfg y = Ok out -> transform (get_daily_vol (ewm_std span)) order' cfg y' = Ok out' ->
  nth_error out i = nth_error out' i.
Proof. exact (fun span order order' cfg y y' out out' i q => c29_full (ewm_std span) order order' cfg y y' out out' i q (ewm_std_causal span) (ewm_std_length span)). Qed.
Print Assumptions C29_same_row_daily_vol.

Definition case_longer : frame Q :=
  {| f_index := case_idx ++ [70000000]%Z; f_cols := [("close"%string, fq [100; 101; 94; 110; 7; 3; 1]%Q)] |}.
Example C29_case : agree_until 4 case_frame case_longer /\
  (match ends_and_labels (transform no_vol [0; 1; 2; 3; 4; 5] case_cfg case_frame),
         ends_and_labels (transform no_vol [0; 1; 2; 3; 4; 5; 6] case_cfg case_longer) with
   | Some a, Some b => nth_error a 0 = nth_error b 0 /\ nth_error a 4 <> nth_error b 4
   | _, _ => False
   end).
Proof.
  split; [|vm_compute; split; [reflexivity|discriminate]]. split; [reflexivity|]. intros name. unfold column. cbn [f_cols case_frame case_longer find fst].
  destruct (String.eqb "close" name); reflexivity.
Qed.

(** ** C30: parameters *)

Theorem C30_negative_factors : forall (A : Type) (HA : Arith A) daily_vol order (cfg : config A) y close,
  altb (profit_taking_factor cfg) a0 = true -> altb (stop_loss_factor cfg) a0 = true ->
  column y (close_column cfg) = Some close -> side_column cfg = "side"%string ->
  (metalabeling cfg = true -> column y "side"%string <> None) ->
  (volatility_adjusted cfg = true -> exists v, daily_vol (f_index y) close = Ok v) ->
  transform daily_vol order cfg y = Err ValueError.
Proof. exact @c30_factors_value. Qed.
Print Assumptions C30_negative_factors.

Theorem C30_other_side_name_fails : forall (A : Type) (HA : Arith A) daily_vol order (cfg : config A) y,
  side_column cfg <> "side"%string -> exists e, transform daily_vol order cfg y = Err e.
Proof. exact @c30_side. Qed.
Print Assumptions C30_other_side_name_fails.

(** With which error, when nothing else is wrong: KeyError if there is a column "side" but not the named one. *)
Theorem C30_other_side_name_error : forall (A : Type) (HA : Arith A) daily_vol order (cfg : config A) y close,
  side_column cfg <> "side"%string -> column y (close_column cfg) = Some close ->
  (metalabeling cfg = true -> column y (side_column cfg) <> None) ->
  (volatility_adjusted cfg = true -> exists v, daily_vol (f_index y) close = Ok v) ->
  transform daily_vol order cfg y =
    Err (match column y "side"%string, column y (side_column cfg) with Some _, None => KeyError | _, _ => AssertionError end).
Proof. exact @c30_side_kind. Qed.
Print Assumptions C30_other_side_name_error.

Theorem C30_missing_columns : forall (A : Type) (HA : Arith A) daily_vol order (cfg : config A) y,
  (column y (close_column cfg) = None -> transform daily_vol order cfg y = Err AssertionError) /\
  (metalabeling cfg = true -> column y (side_column cfg) = None -> transform daily_vol order cfg y = Err AssertionError).
Proof. exact (fun A HA daily_vol order cfg y => conj (c30_close daily_vol order cfg y) (c30_meta daily_vol order cfg y)). Qed.
Print Assumptions C30_missing_columns.

(** The constructor: without a side column no meta-labels; anything else is kept as given. *)
Theorem C30_constructor : forall (A : Type) (cfg : config A),
  (metalabeling cfg = true /\ side_column cfg = ""%string -> construct cfg = Err AssertionError) /\
  (metalabeling cfg = false \/ side_column cfg <> ""%string -> construct cfg = Ok cfg).
Proof.
  intros A cfg. unfold construct. destruct (metalabeling cfg), (String.eqb_spec (side_column cfg) ""%string) as [E|E]; split; cbn; intuition congruence.
Qed.
Print Assumptions C30_constructor.

(** A single negative factor is accepted: see C27_succeeds and C25_no_barrier; here on an input. *)
Definition case_neg : config Q :=
  {| n_expiration_bars := 3; profit_taking_factor := (-1)%Q; stop_loss_factor := 1 # 20; metalabeling := false;
     close_column := "close"; side_column := "side"; volatility_adjusted := false; expiration_label := false |}.
Example C30_case_single : ends_and_labels (transform no_vol [0; 1; 2; 3; 4; 5] case_neg case_frame) =
  Some [(Some 30%Z, Fin (-1 # 1)%Q); (Some 30%Z, Fin (-1 # 1)%Q); (Some 60%Z, Fin (-1 # 1)%Q); (Some 50%Z, Fin (-1 # 1)%Q); (None, NaN); (None, NaN)].
Proof. vm_compute. reflexivity. Qed.

(** ** C31: the daily volatility *)

(** The returns entering the volatility: one for every bar from position [m] on. The bars before [m] are those without
    any bar more than a day earlier; the others are compared with the latest such bar. *)
Theorem C31_reference_bar : forall (A : Type) (HA : Arith A) idx (close : list (ext A)),
  increasingZ idx -> length close = length idx ->
  exists r m, daily_returns idx close = Ok r /\ m <= length idx /\ map fst r = skipn m idx /\
    (forall k t, nth_error idx k = Some t -> (k < m <-> forall u, In u idx -> ~ (u < t - a_day)%Z)) /\
    (forall k t c, nth_error idx k = Some t -> nth_error close k = Some c -> m <= k ->
       exists j u d, nth_error idx j = Some u /\ (u < t - a_day)%Z /\
         (forall u', In u' idx -> (u' < t - a_day)%Z -> (u' <= u)%Z) /\
         nth_error close j = Some d /\
         nth_error r (k - m) = Some (t, esub (ediv c d) (Fin a1))).
Proof. exact @c31. Qed.
Print Assumptions C31_reference_bar.

(** In the output, a bar without reference bar has no volatility. *)
Theorem C31_no_reference_no_volatility : forall span order (cfg : config R) y close out i o t,
  valid_times (f_index y) -> well_formed y -> Permutation order (seq 0 (length (f_index y))) -> volatility_adjusted cfg = true ->
  column y (close_column cfg) = Some close -> nth_error (f_index y) i = Some t ->
  transform (get_daily_vol (ewm_std span)) order cfg y = Ok out -> nth_error out i = Some o ->
  (forall u, In u (f_index y) -> ~ (u < t - a_day)%Z) -> o_vol o = NaN.
Proof. exact (fun span order cfg y close out i o t => c31_row (ewm_std span) order cfg y close out i o t (ewm_std_causal span) (ewm_std_length span)). Qed.
Print Assumptions C31_no_reference_no_volatility.

(** The volatility aligned on row [k] is the exponentially weighted deviation of the returns up to that row. *)
Theorem C31_aligned : forall span idx (close : list (ext R)) v r m k t, increasingZ idx -> length close = length idx ->
  daily_returns idx close = Ok r -> m <= length idx -> map fst r = skipn m idx -> get_daily_vol (ewm_std span) idx close = Ok v ->
  nth_error idx k = Some t ->
  nth_error (align idx v) k = if Nat.ltb k m then Some NaN else nth_error (ewm_std span (map snd r)) (k - m).
Proof. exact (fun span idx close v r m k t => c31_align (ewm_std span) idx close v r m k t (ewm_std_length span)). Qed.
Print Assumptions C31_aligned.

Theorem C31_nonnegative : forall span l k v, nth_error (ewm_std span l) k = Some v -> v = NaN \/ exists s, v = Fin s /\ (0 <= s)%R.
Proof. exact ewm_std_nonneg. Qed.
Print Assumptions C31_nonnegative.

(** The exponentially weighted deviation: missing while there are fewer than two returns, and then the root of the
    weighted mean, over all pairs of returns so far, of half their squared difference. *)
Theorem C31_weighted_deviation : forall span l k v, (1 < span)%R -> nth_error (ewm_std span l) k = Some v ->
  let returns := aged (firstn (S k) l) in
  (length returns < 2 -> v = NaN) /\ (2 <= length returns -> exists s, v = Fin s /\ weighted_deviation span returns s).
Proof. exact ewm_std_pairs. Qed.
Print Assumptions C31_weighted_deviation.
Example C31_deviation_case : aged (firstn 4 [Fin 1; NaN; Fin 5; Fin 2; Fin 7]%R) = [(3, 1%R); (1, 5%R); (0, 2%R)] /\
  pairs [(3, 1%R); (1, 5%R); (0, 2%R)] = [((3, 1%R), (1, 5%R)); ((3, 1%R), (0, 2%R)); ((1, 5%R), (0, 2%R))] /\ decay 3 2 = (1 / 4)%R /\
  exists v s, nth_error (ewm_std 3 [Fin 1; NaN; Fin 5; Fin 2; Fin 7]%R) 3 = Some v /\ v = Fin s /\ (0 <= s)%R /\ (s ^ 2 * (11 / 16) = 1 / 2 + 1 / 16 + 9 / 4)%R.
Proof.
  split; [reflexivity|]. split; [reflexivity|]. split; [unfold decay; Lra.lra|].
  destruct (nth_error (ewm_std 3 [Fin 1; NaN; Fin 5; Fin 2; Fin 7]%R) 3) as [v|] eqn:E; [|discriminate].
  destruct (ewm_std_pairs 3 _ _ _ ltac:(Lra.lra) E) as (_ & H). destruct (H ltac:(cbn; lia)) as (s & -> & Hs & Hw). exists (Fin s), s. split; [reflexivity|]. split; [reflexivity|]. split; [exact Hs|].
  unfold pair_weight, half_square, decay, total in Hw. cbn [firstn aged length pairs map app fst snd fold_right] in Hw. Lra.lra.
Qed.

Example C31_case :
  let day := a_day in
  daily_returns [1; 2; day; day + 2; day + 3; 2 * day + 10]%Z (fq [100; 50; 7; 110; 100; 55]%Q) =
  Ok [(day + 2, Fin ((110 / 100) - 1)%Q); (day + 3, Fin ((100 / 50) - 1)%Q); (2 * day + 10, Fin ((55 / 100) - 1)%Q)]%Z.
Proof. vm_compute. reflexivity. Qed.
