(** C20-C21: sample weights. *)
From Coq Require Import QArith Reals Permutation Lra.
From Verif Require Import Series QSum Boot_Model Weights_Spec Weights_Model Weights_Proofs Weights_Proofs2.
Local Open Scope nat_scope.

(** ** C20: return attribution *)

(** The weight of a label is the absolute sum, over the bars between its start and its end (milliseconds), of the
    bar's log return divided by the number of labels alive at the bar; missing returns count as zero. *)
Theorem C20_return_weights : forall rows : list price_row,
  (forall r p, In r rows -> snd r = Some p -> (0 < p)%R) ->
  (forall r, In r rows -> (start_of r <= end_of r)%Z) ->
  forall out,
  returns_transform (map (fun r => {| w_start := start_of r; w_end := Some (end_of r); w_close := of_opt (snd r) |}) rows)
    = Ok out ->
  map fst out = map start_of rows /\
  forall i r, nth_error rows i = Some r ->
    nth_error out i = Some (start_of r, Fin (Rabs (rsum (map (contribution rows)
      (filter (fun k => match nth_error rows k with
                        | Some b => within_ms (start_of r) (end_of r) (start_of b)
                        | None => false end) (seq 0 (length rows))))))).
Proof. exact c20. Qed.
Print Assumptions C20_return_weights.

(** Weights are never negative, for any prices (also zero, negative, infinite or missing ones). *)
Theorem C20_never_negative : forall X out t w, returns_transform X = Ok out -> In (t, w) out -> eltb w (Fin 0%R) = false.
Proof. exact c20_nonneg. Qed.
Print Assumptions C20_never_negative.

(** The call succeeds exactly when the indicator matrix of the labels can be built. *)
Theorem C20_succeeds : forall X,
  (exists out, returns_transform X = Ok out) <->
  (exists mi, get_ind_matrix (map (fun r => (Some (w_start r), w_end r)) X) (map w_start X) = Ok mi).
Proof. exact c20_succeeds. Qed.
Print Assumptions C20_succeeds.

Definition ex_rows : list price_row :=
  [(10000000, 30000000, Some 2%R); (20000000, 30000000, None); (30000000, 50000000, Some 3%R); (40000000, 50000000, Some 5%R)]%Z.
Example C20_case :
  (forall r p, In r ex_rows -> snd r = Some p -> (0 < p)%R) /\
  (forall r, In r ex_rows -> (start_of r <= end_of r)%Z) /\
  (exists out, returns_transform (map (fun r => {| w_start := start_of r; w_end := Some (end_of r); w_close := of_opt (snd r) |}) ex_rows)
    = Ok out) /\
  contribution ex_rows 3 = ((ln 5 - ln 3) / INR 2)%R.
Proof.
  repeat split.
  - intros r p Hin Hr. repeat (destruct Hin as [<-|Hin]; [cbn in Hr; try discriminate; injection Hr as <-; lra|]). easy.
  - intros r Hin. repeat (destruct Hin as [<-|Hin]; [vm_compute; discriminate|]). easy.
  - apply C20_succeeds.
    exists (match get_ind_matrix [(Some 10000000, Some 30000000); (Some 20000000, Some 30000000); (Some 30000000, Some 50000000); (Some 40000000, Some 50000000)]%Z
              [10000000; 20000000; 30000000; 40000000]%Z with Ok mi => mi | Err _ => ({| nrows := 0; ncols := 0; entry := fun _ _ => false |}, []) end).
    reflexivity.
Qed.

(** ** C21: time decay *)

(** For -1 < c <= 1: one weight per label, in time order; the weight is the documented function of the share of
    cumulative uniqueness up to the label. *)
Theorem C21_decay_weights : forall c samples out, (-1 < c)%Q -> (forall s e, In (s, e) samples -> (s <= e)%Z) ->
  decay_transform c (map (fun s => (fst s, Some (snd s))) samples) = Ok out ->
  exists us,
    average_uniqueness_transform (map (fun s => (fst s, Some (snd s))) samples) =
      Ok (map (fun r => (fst r, Some (snd r))) us) /\
    increasingZ (map fst out) /\ Permutation (map fst out) (map fst samples) /\
    (forall t w, In (t, w) out -> exists q, w = Fin q /\ (q == decayed c (share us t))%Q).
Proof. exact c21_weights. Qed.
Print Assumptions C21_decay_weights.

(** 0 <= c <= 1: weights lie in [c, 1], grow with time, and the newest one is 1. *)
Theorem C21_shape_nonnegative : forall c samples out, (0 <= c)%Q -> (forall s e, In (s, e) samples -> (s <= e)%Z) ->
  decay_transform c (map (fun s => (fst s, Some (snd s))) samples) = Ok out ->
  (forall t w, In (t, w) out -> exists q, w = Fin q /\ (c <= q <= 1)%Q /\ ((0 < c)%Q -> (0 < q)%Q) /\
      ((forall t' w', In (t', w') out -> (t' <= t)%Z) -> (q == 1)%Q)) /\
  (forall t q t' q', In (t, Fin q) out -> In (t', Fin q') out -> (t <= t')%Z -> (q <= q')%Q).
Proof. exact c21_nonneg. Qed.
Print Assumptions C21_shape_nonnegative.

(** -1 < c < 0: exactly the labels within the oldest share -c of the uniqueness get weight 0. *)
Theorem C21_shape_negative : forall c samples out, (-1 < c < 0)%Q -> (forall s e, In (s, e) samples -> (s <= e)%Z) ->
  decay_transform c (map (fun s => (fst s, Some (snd s))) samples) = Ok out ->
  exists us, average_uniqueness_transform (map (fun s => (fst s, Some (snd s))) samples) =
      Ok (map (fun r => (fst r, Some (snd r))) us) /\
  (forall t w, In (t, w) out -> exists q, w = Fin q /\ (0 <= q <= 1)%Q /\
      ((q == 0)%Q <-> (share us t <= - c)%Q) /\
      ((forall t' w', In (t', w') out -> (t' <= t)%Z) -> (q == 1)%Q)) /\
  (forall t q t' q', In (t, Fin q) out -> In (t', Fin q') out -> (t <= t')%Z -> (q <= q')%Q).
Proof. exact c21_negative. Qed.
Print Assumptions C21_shape_negative.

(** c > 1 is rejected; otherwise the call succeeds exactly when the average uniqueness can be computed. *)
Theorem C21_too_large_rejected : forall c X, (1 < c)%Q -> decay_transform c X = Err AssertionError.
Proof. exact c21_too_large. Qed.
Print Assumptions C21_too_large_rejected.
Theorem C21_succeeds : forall c X, (c <= 1)%Q ->
  (exists out, decay_transform c X = Ok out) <-> exists av, average_uniqueness_transform X = Ok av.
Proof. exact c21_error. Qed.
Print Assumptions C21_succeeds.

(** The documentation promises weights in [0, 1] that grow with time for every c <= 1. It fails for c <= -1:
    c = -1 makes every weight NaN, and c < -1 makes weights fall with time, all but the newest above 1. *)
Theorem C21_minus_one_refuted : forall c samples out, (c == -1)%Q -> (forall s e, In (s, e) samples -> (s <= e)%Z) ->
  decay_transform c (map (fun s => (fst s, Some (snd s))) samples) = Ok out ->
  forall t w, In (t, w) out -> w = NaN.
Proof. exact c21_minus_one. Qed.
Print Assumptions C21_minus_one_refuted.
Theorem C21_below_minus_one_refuted : forall c samples out, (c < -1)%Q -> (forall s e, In (s, e) samples -> (s <= e)%Z) ->
  decay_transform c (map (fun s => (fst s, Some (snd s))) samples) = Ok out ->
  (forall t w, In (t, w) out -> exists q, w = Fin q /\ (1 <= q)%Q /\
     ((exists t' w', In (t', w') out /\ (t < t')%Z) -> (1 < q)%Q)) /\
  (forall t q t' q', In (t, Fin q) out -> In (t', Fin q') out -> (t <= t')%Z -> (q' <= q)%Q).
Proof. exact c21_below. Qed.
Print Assumptions C21_below_minus_one_refuted.

Definition ex_samples : list (Z * option Z) := [(50, Some 50); (10, Some 30); (20, Some 40)]%Z.
Definition show (r : result (list (Z * ext Q))) : list (Z * ext Q) :=
  match r with Ok l => map (fun x => (fst x, match snd x with Fin q => Fin (Qred q) | y => y end)) l | Err _ => [] end.
Example C21_case : show (decay_transform (1 # 2) ex_samples) = [(10%Z, Fin (9 # 14)); (20%Z, Fin (11 # 14)); (50%Z, Fin 1)]%Q /\
  show (decay_transform (- (1 # 2)) ex_samples) = [(10%Z, Fin 0); (20%Z, Fin (1 # 7)); (50%Z, Fin 1)]%Q /\
  show (decay_transform (- 1) ex_samples) = [(10%Z, NaN); (20%Z, NaN); (50%Z, NaN)]%Q /\
  show (decay_transform (- 2) ex_samples) = [(10%Z, Fin (12 # 7)); (20%Z, Fin (10 # 7)); (50%Z, Fin 1)]%Q.
Proof. vm_compute. auto. Qed.
