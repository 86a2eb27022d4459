(** C106: the labels and the event filter in double precision. (C25-C30 and C24 hold for any arithmetic, this one included.) *)
From Coq Require Import Reals ZArith QArith Lia Lra Permutation String List.
From Verif Require Import PreludeFacts Num Series DailyVol_Model Label_Model Label_Spec Label_Proofs3 Label_Proofs4 Cusum_Model Cusum_Proofs
  Double_Model Double_Spec Double_Proofs Double_Proofs2 Double_Proofs3.
Import ListNotations.
Local Open Scope R_scope.

(** ** The arithmetic *)

(** The rounding of the model gives a nearest double, and every double unchanged. *)
Theorem C106_nearest : forall x, nearest x (to_double x) /\ (is_double x -> to_double x = x).
Proof. exact (fun x => conj (to_double_nearest x) (to_double_id x)). Qed.
Print Assumptions C106_nearest.

(** ** Labels *)

(** The label has exactly the sign of the price move, although the return is rounded twice. *)
Theorem C106_labels : forall daily_vol order (cfg : config R) y close out i o s t,
  valid_times (f_index y) -> well_formed y -> Permutation order (seq 0 (length (f_index y))) ->
  column y (close_column cfg) = Some close -> (forall c, In c close -> exists p, c = Fin p /\ positive_double p) ->
  @event_side R Arith_double y i (Fin s) -> s = 1 \/ s = -1 ->
  @transform R Arith_double daily_vol order cfg y = Ok out -> nth_error out i = Some o -> o_end o = Some t ->
  exists k c0 c, nth_error (f_index y) k = Some t /\ nth_error close i = Some (Fin c0) /\ nth_error close k = Some (Fin c) /\
    (expiration_label cfg = false -> metalabeling cfg = false ->
       (c0 < c -> o_label o = Fin 1) /\ (c < c0 -> o_label o = Fin (-1)) /\ (c = c0 -> o_label o = Fin 0)) /\
    (expiration_label cfg = false -> metalabeling cfg = true ->
       (0 < (c - c0) * s -> o_label o = Fin 1) /\ ((c - c0) * s < 0 -> o_label o = Fin 0) /\ (c = c0 -> o_label o = NaN)).
Proof. exact c106_labels. Qed.
Print Assumptions C106_labels.

(** An event ends strictly after it starts, in doubles and in exact arithmetic. *)
Theorem C106_later : forall daily_vol order (cfg : config R) y close out i o s v c t t0,
  valid_times (f_index y) -> well_formed y -> Permutation order (seq 0 (length (f_index y))) ->
  (1 <= n_expiration_bars cfg)%Z ->
  column y (close_column cfg) = Some close -> nth_error close i = Some (Fin c) -> c <> 0 ->
  @event_side R Arith_double y i (Fin s) -> o_vol o = Fin v -> 0 <= v ->
  @transform R Arith_double daily_vol order cfg y = Ok out -> nth_error out i = Some o -> o_end o = Some t ->
  nth_error (f_index y) i = Some t0 -> (t0 < t)%Z.
Proof. exact c106_later. Qed.
Print Assumptions C106_later.

Theorem C27_later : forall daily_vol order (cfg : config R) y close out i o s v c t t0,
  valid_times (f_index y) -> well_formed y -> Permutation order (seq 0 (length (f_index y))) ->
  (1 <= n_expiration_bars cfg)%Z ->
  column y (close_column cfg) = Some close -> nth_error close i = Some (Fin c) -> c <> 0 ->
  event_side y i (Fin s) -> o_vol o = Fin v -> 0 <= v ->
  transform daily_vol order cfg y = Ok out -> nth_error out i = Some o -> o_end o = Some t ->
  nth_error (f_index y) i = Some t0 -> (t0 < t)%Z.
Proof. exact c27_later. Qed.
Print Assumptions C27_later.

(** The return that the labelling computes for finite prices. *)
Definition computed_return (c0 c r : R) : Prop :=
  @esub R Arith_double (@ediv R Arith_double (Fin c) (Fin c0)) (Fin (@a1 R Arith_double)) = Fin r.
(** It exists, never ranks two prices the wrong way round, and is within three roundings of the exact return. *)
Theorem C106_return : forall c0, 0 < c0 ->
  (forall c, exists r, computed_return c0 c r) /\
  (forall c c' r r', c <= c' -> computed_return c0 c r -> computed_return c0 c' r' -> r <= r') /\
  (forall c r, 0 < c -> computed_return c0 c r -> Rabs (r - (c / c0 - 1)) <= 3 / 2 ^ 53 * (1 + c / c0)).
Proof.
  unfold computed_return. change (@a1 R Arith_double) with 1. intros c0 H. split; [|split].
  - intros c. rewrite (return_eq c0 c H). eauto.
  - intros c c' r r' L. rewrite !return_eq by exact H. intros [= <-] [= <-]. now apply return_monotone.
  - intros c r P. rewrite return_eq by exact H. intros [= <-]. now apply return_accuracy.
Qed.
Print Assumptions C106_return.

(** A labelling that meets the hypotheses: prices 100, 100.5 and 99 with a barrier after one bar. *)
Definition case_double : frame R :=
  {| f_index := [10000000; 20000000; 30000000]%Z; f_cols := [("close"%string, [Fin 100; Fin (201 / 2); Fin 99])] |}.
Definition case_double_cfg : config R :=
  {| n_expiration_bars := 1; profit_taking_factor := 0; stop_loss_factor := 0; metalabeling := false;
     close_column := "close"; side_column := "side"; volatility_adjusted := false; expiration_label := false |}.
Example C106_case_labels : valid_times (f_index case_double) /\ well_formed case_double /\
  (forall c, In c [Fin 100; Fin (201 / 2); Fin 99] -> exists p, c = Fin p /\ positive_double p) /\
  @event_side R Arith_double case_double 0 (Fin 1) /\
  exists out o, @transform R Arith_double (fun _ _ => Err KeyError) [0; 1; 2]%nat case_double_cfg case_double = Ok out /\
    nth_error out 0 = Some o /\ o_end o = Some 20000000%Z /\ o_vol o = Fin 1.
Proof.
  assert (HP : Permutation [0; 1; 2]%nat (seq 0 (length (f_index case_double)))) by reflexivity.
  enough (HV : valid_times (f_index case_double)); [enough (HW : well_formed case_double); [split; [exact HV|split; [exact HW|split; [|split]]]|]|].
  5: { split; [unfold increasingZ; cbn; repeat constructor; lia|].
    intros t Ht. cbn in Ht. repeat destruct Ht as [<-|Ht]; try contradiction; split; reflexivity. }
  4: { intros name col Hc. unfold column in Hc. destruct (find _ (f_cols case_double)) as [c|] eqn:E; [|discriminate]. injection Hc as <-.
    apply find_some in E. destruct E as [[<-|[]] _]. reflexivity. }
  - intros c [<-|[<-|[<-|[]]]]; eexists; (split; [reflexivity|]); (split; [|lra]).
    + apply is_double_IZR. lia.
    + exists 201%Z, (-1)%Z. split; [unfold powerRZ; rewrite Pos2Nat.inj_1, pow_1; reflexivity|lia].
    + apply is_double_IZR. lia.
  - reflexivity.
  - destruct (@transform_outcome R Arith_double (fun _ _ => Err KeyError) [0; 1; 2]%nat case_double_cfg case_double [Fin 100; Fin (201 / 2); Fin 99])
      as [H _]; auto; try discriminate.
    { cbn. destruct (Rlt_dec 0 0); [lra|reflexivity]. }
    destruct H as (out & Hout & Hlen); [discriminate|]. exists out.
    destruct out as [|o r]; [discriminate|]. exists o. split; [exact Hout|]. split; [reflexivity|].
    assert (o_vol o = Fin 1) as Eo.
    { destruct (@out_row_vol R Arith_double _ _ _ _ _ 0%nat o HV HW HP Hout eq_refl) as (close & vol & Hc & Hv & Hi & _).
      cbn in Hv. injection Hv as <-. cbn in Hi. congruence. }
    split; [|exact Eo].
    apply (@c27 R Arith_double _ _ case_double_cfg _ [Fin 100; Fin (201 / 2); Fin 99] _ 0%nat o (Fin 1) HV HW HP eq_refl eq_refl Hout eq_refl). { now rewrite Eo. }
    split.
    + left. exists 1%nat. split; reflexivity.
    + intros t [(p & Ep & Hp)|(e & _ & [Ht|Ht])].
      * cbn in Ep. assert (p = 1%nat) by lia. subst p. cbn in Hp. injection Hp as <-. lia.
      * destruct Ht as (x & c0 & k & c & _ & _ & _ & _ & _ & H). unfold below_stop in H. cbn in H. destruct (Rlt_dec 0 0); [lra|discriminate].
      * destruct Ht as (x & c0 & k & c & _ & _ & _ & _ & _ & H). unfold above_profit in H. cbn in H. destruct (Rlt_dec 0 0); [lra|discriminate].
Qed.

(** ** The event filter *)

(** After every history (infinite and missing prices included) the accumulators are finite and within the threshold. *)
Theorem C106_cusum_bounded : forall h X st, 0 <= h -> @cusum_loop R Arith_double h X = Ok st ->
  exists p n, pos st = Fin p /\ neg st = Fin n /\ is_double p /\ is_double n /\ 0 <= p <= h /\ - h <= n <= 0.
Proof. exact loop_d. Qed.
Print Assumptions C106_cusum_bounded.

(** In every reached state and for every next difference at most one side fires. *)
Theorem C106_cusum_one_side : forall h X st d, 0 <= h -> @cusum_loop R Arith_double h X = Ok st ->
  (@eltb R Arith_double (@py_min R Arith_double (Fin 0) (@eadd R Arith_double (neg st) d)) (Fin (- h)) &&
   @eltb R Arith_double (Fin h) (@py_max R Arith_double (Fin 0) (@eadd R Arith_double (pos st) d)) = false)%bool.
Proof. exact (fun h X st d Hh H => proj2 (step_d h st 0%Z d Hh (loop_d h X st Hh H))). Qed.
Print Assumptions C106_cusum_one_side.

(** Prices in ticks of a power of two: the filter in doubles selects the events of the exact filter, hence (C22) exactly the
    crossings. *)
Theorem C106_cusum_exact : forall e h (X : list (Z * option Z)), (-1074 <= e)%Z -> (0 <= h <= 2 ^ 51)%Z ->
  (forall t z, In (t, Some z) X -> (Z.abs z <= 2 ^ 51)%Z) ->
  @cusum_transform R Arith_double (IZR h * powerRZ 2 e) (map (fun r => (fst r, in_double e (snd r))) X) =
  cusum_transform (inject_Z h) (map (fun r => (fst r, in_ticks (snd r))) X).
Proof. exact c106_grid. Qed.
Print Assumptions C106_cusum_exact.

Example C106_case_cusum :
  @cusum_transform R Arith_double (IZR 6 * powerRZ 2 (-2)) (map (fun r => (fst r, in_double (-2) (snd r)))
    [(1, Some 40); (2, Some 44); (3, Some 48); (4, None); (5, Some 40); (6, Some 48); (7, Some 41)]%Z) = Ok [3; 6; 7]%Z.
Proof.
  rewrite C106_cusum_exact; [vm_compute; reflexivity|lia|lia|].
  intros t z H. repeat destruct H as [H|H]; try (injection H as _ <-; lia); try discriminate; destruct H.
Qed.
