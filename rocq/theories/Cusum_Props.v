(** C22-C24: the CUSUM filter. *)
From Coq Require Import QArith.
From Verif Require Import Series Cusum_Spec Cusum_Model Cusum_Proofs.
Local Open Scope nat_scope.

(** ** C22: exact crossings *)

(** The selected labels are those of the positions at which the price rose by more than the threshold from a level
    since the last rise (or the start), or fell by more than the threshold from a level since the last fall. *)
Theorem C22_exact_crossings : forall h (X : list (Z * Q)), (0 <= h)%Q -> NoDup (map fst X) ->
  exists up down : nat -> bool,
    rises h (fun k => nth k (map snd X) 0%Q) (length X) (fun k => up k = true) /\
    falls h (fun k => nth k (map snd X) 0%Q) (length X) (fun k => down k = true) /\
    (forall k, up k && down k = false) /\
    cusum_transform h (map (fun r => (fst r, Fin (snd r))) X) =
      Ok (map (fun k => nth k (map fst X) 0%Z) (filter (fun k => up k || down k) (seq 0 (length X)))).
Proof. exact c22. Qed.
Print Assumptions C22_exact_crossings.

(** The two conditions determine the positions. *)
Theorem C22_rises_unique : forall h p n U V, rises h p n U -> rises h p n V -> forall k, k < n -> (U k <-> V k).
Proof. exact rises_unique. Qed.
Print Assumptions C22_rises_unique.
Theorem C22_falls_unique : forall h p n U V, falls h p n U -> falls h p n V -> forall k, k < n -> (U k <-> V k).
Proof. exact falls_unique. Qed.
Print Assumptions C22_falls_unique.

(** A missing value restarts the filter: the parts before and after it are filtered separately. *)
Theorem C22_missing_restarts : forall h A t B out, (0 <= h)%Q ->
  cusum_transform h (A ++ (t, NaN) :: B) = Ok out ->
  exists a b, cusum_transform h A = Ok a /\ cusum_transform h B = Ok b /\ out = a ++ b.
Proof. exact c22_missing. Qed.
Print Assumptions C22_missing_restarts.

(** A repeated label is rejected. *)
Theorem C22_duplicate_labels : forall A (HA : Arith A) (h : A) X, ~ NoDup (map fst X) -> cusum_transform h X = Err ValueError.
Proof. exact @transform_err. Qed.
Print Assumptions C22_duplicate_labels.

Example C22_case : cusum_transform (3 # 2) (map (fun r => (fst r, Fin (snd r)))
    [(1%Z, 10); (2%Z, 11); (3%Z, 12); (4%Z, 11); (5%Z, 10); (6%Z, 12); (7%Z, 13)]%Q) = Ok [3%Z; 5%Z; 6%Z] /\
  NoDup (map fst [(1%Z, 10); (2%Z, 11); (3%Z, 12); (4%Z, 11); (5%Z, 10); (6%Z, 12); (7%Z, 13)]%Q).
Proof. split; [vm_compute; reflexivity|]. repeat constructor; cbn; intros H; repeat (destruct H as [H|H]; [discriminate|]); auto. Qed.

(** ** C23: bounded accumulators, any values (missing and infinite included) *)

(** After every history the accumulators are finite, have the right sign and are within the threshold. *)
Theorem C23_accumulators_bounded : forall h X st, (0 <= h)%Q -> cusum_loop h X = Ok st ->
  exists p n, pos st = Fin p /\ neg st = Fin n /\ (0 <= p <= h)%Q /\ (- h <= n <= 0)%Q.
Proof. exact c23. Qed.
Print Assumptions C23_accumulators_bounded.

(** In every reached state and for every next difference, at most one side exceeds the threshold. *)
Theorem C23_one_side_fires : forall h X st t d, (0 <= h)%Q -> cusum_loop h X = Ok st ->
  eltb (py_min (Fin a0) (eadd (neg st) d)) (eopp (Fin h)) && eltb (Fin h) (py_max (Fin a0) (eadd (pos st) d)) = false /\
  exists p n, pos (cusum_step h st t d) = Fin p /\ neg (cusum_step h st t d) = Fin n /\
    (0 <= p <= h)%Q /\ (- h <= n <= 0)%Q.
Proof. exact c23_exclusive. Qed.
Print Assumptions C23_one_side_fires.

(** The first label is never selected. *)
Theorem C23_first_never_selected : forall A (HA : Arith A) (h : A) X out, cusum_transform h X = Ok out ->
  subseq out (tl (map fst X)) /\ NoDup (map fst X).
Proof. exact @c23_first. Qed.
Print Assumptions C23_first_never_selected.

Example C23_case : exists st, cusum_loop 1%Q [(1%Z, Fin 10); (2%Z, NaN); (3%Z, Fin 12); (4%Z, PInf); (5%Z, Fin 10)]%Q = Ok st /\
  picked st = [4; 5]%Z.
Proof. eexists. split; vm_compute; reflexivity. Qed.

(** ** C24: no look-ahead *)

(** Running on a longer series only appends labels of the added part. *)
Theorem C24_no_lookahead : forall A (HA : Arith A) (h : A) X Y out, cusum_transform h (X ++ Y) = Ok out ->
  exists a b, cusum_transform h X = Ok a /\ out = a ++ b /\ subseq a (tl (map fst X)) /\ subseq b (map fst Y).
Proof. exact @c24. Qed.
Print Assumptions C24_no_lookahead.

Theorem C24_sorted : forall A (HA : Arith A) (h : A) X out, cusum_transform h X = Ok out -> increasingZ (map fst X) -> increasingZ out.
Proof. exact @c24_sorted. Qed.
Print Assumptions C24_sorted.

Theorem C24_succeeds : forall A (HA : Arith A) (h : A) X, NoDup (map fst X) -> exists out, cusum_transform h X = Ok out.
Proof. exact @c22_ok. Qed.
Print Assumptions C24_succeeds.
