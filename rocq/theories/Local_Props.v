(** C91-C92: what the uniqueness and the weights of a label depend on. *)
From Coq Require Import QArith Reals Permutation Lia.
From Verif Require Import Prelude PreludeFacts Series QSum Boot_Model Weights_Model Weights_Spec Local_Spec Local_Proofs Local_Proofs2.
Local Open Scope nat_scope.

(** ** C91: only overlapping labels matter *)

(** Whatever the other labels are, and in whatever order the rows are given. *)
Theorem C91_uniqueness : forall samples samples' out out' s e u u',
  (forall s e, In (s, e) samples -> (s <= e)%Z) -> (forall s e, In (s, e) samples' -> (s <= e)%Z) ->
  average_uniqueness_transform (labelled samples) = Ok out -> average_uniqueness_transform (labelled samples') = Ok out' ->
  In (s, e) samples -> same_around (s, e) samples samples' -> In (s, Some u) out -> In (s, Some u') out' -> (u == u')%Q.
Proof. exact uniqueness_local. Qed.
Print Assumptions C91_uniqueness.

(** The weight by returns: rows whose label has ended before the label, and rows that start after its end, can be left out,
    as long as the row before the label remains (its price is needed for the first return). *)
Theorem C91_return_weights : forall early mid later out out' i r,
  let row r := {| w_start := start_of r; w_end := Some (end_of r); w_close := of_opt (snd r) |} in
  let all := early ++ mid ++ later in
  (forall r' p, In r' all -> snd r' = Some p -> (0 < p)%R) -> (forall r', In r' all -> (start_of r' <= end_of r')%Z) ->
  returns_transform (map row all) = Ok out -> returns_transform (map row mid) = Ok out' ->
  nth_error mid i = Some r ->
  (forall r', In r' early -> before_ms (end_of r') (start_of r)) -> (forall r', In r' later -> before_ms (end_of r) (start_of r')) ->
  (forall r', nth_error mid 0 = Some r' -> early <> [] -> before_ms (start_of r') (start_of r)) ->
  nth_error out (length early + i) = nth_error out' i.
Proof. exact return_weights_local. Qed.
Print Assumptions C91_return_weights.

Definition c91_samples : list (Z * Z) := [(10, 30); (20, 40); (50, 60)]%Z.
Definition c91_others : list (Z * Z) := [(70, 90); (20, 40); (41, 44); (10, 30); (0, 9); (80, 85)]%Z.
Definition values (r : result (list (Z * option Q))) : list (Z * option Q) := match r with Ok l => map (fun x => (fst x, option_map Qred (snd x))) l | Err _ => [] end.
Example C91_case : same_around (10, 30)%Z c91_samples c91_others /\
  values (average_uniqueness_transform (labelled c91_samples)) = [(10%Z, Some (2 # 3)); (20%Z, Some (2 # 3)); (50%Z, Some 1)]%Q /\
  values (average_uniqueness_transform (labelled c91_others)) =
    [(70%Z, Some (3 # 4)); (20%Z, Some (2 # 3)); (41%Z, Some 1); (10%Z, Some (2 # 3)); (0%Z, Some 1); (80%Z, Some (1 # 2))]%Q.
Proof.
  split; [|split; vm_compute; reflexivity]. intros [a b] [H1 H2]. cbn [fst snd] in *. unfold c91_samples, c91_others. cbn [In].
  split; intros H; repeat (destruct H as [H|H]; [injection H as <- <-; lia || tauto|]); destruct H.
Qed.

(** ** C92: the order of the rows does not matter *)

Theorem C92_uniqueness : forall samples samples', Permutation samples samples' -> (forall s e, In (s, e) samples -> (s <= e)%Z) ->
  is_ok (average_uniqueness_transform (labelled samples)) = is_ok (average_uniqueness_transform (labelled samples')) /\
  forall out out', average_uniqueness_transform (labelled samples) = Ok out -> average_uniqueness_transform (labelled samples') = Ok out' ->
  forall s u, In (s, u) out -> exists q q', u = Some q /\ In (s, Some q') out' /\ (q == q')%Q.
Proof. exact uniqueness_perm. Qed.
Print Assumptions C92_uniqueness.

(** The decay sorts the rows by time: the outputs agree row by row. *)
Theorem C92_time_decay : forall c samples samples', (-1 < c)%Q -> Permutation samples samples' -> (forall s e, In (s, e) samples -> (s <= e)%Z) ->
  is_ok (decay_transform c (labelled samples)) = is_ok (decay_transform c (labelled samples')) /\
  forall out out', decay_transform c (labelled samples) = Ok out -> decay_transform c (labelled samples') = Ok out' ->
  Forall2 (fun r r' => fst r = fst r' /\ exists q q', snd r = Fin q /\ snd r' = Fin q' /\ (q == q')%Q) out out'.
Proof. exact decay_perm. Qed.
Print Assumptions C92_time_decay.

(** The weights by returns do depend on it: a return is taken from the row before, in whatever order the rows are. *)
Theorem C92_return_weights_need_order :
  let row r := {| w_start := start_of r; w_end := Some (end_of r); w_close := of_opt (snd r) |} in
  ~ (forall rows rows' out out' t w w', Permutation rows rows' -> (forall r p, In r rows -> snd r = Some p -> (0 < p)%R) -> (forall r, In r rows -> (start_of r <= end_of r)%Z) ->
     returns_transform (map row rows) = Ok out -> returns_transform (map row rows') = Ok out' -> In (t, w) out -> In (t, w') out' -> w = w').
Proof. exact return_weights_shuffled. Qed.
Print Assumptions C92_return_weights_need_order.
