(** Vocabulary for bet sizing in double precision. *)
From Coq Require Import Reals ZArith List String.
From Verif Require Import Num Bet_Model Bet_Spec Double_Model Double_Spec.
Import ListNotations.
Local Open Scope R_scope.

(** What is assumed of the values that `norm.cdf` returns: doubles from 0 to 1, no smaller for a larger argument, 1/2 at 0. *)
Definition double_cdf (cdf : R -> R) : Prop :=
  (forall x, is_double (cdf x) /\ 0 <= cdf x <= 1) /\ (forall x y, x <= y -> cdf x <= cdf y) /\ cdf 0 = 1 / 2.

(** A good row (Bet_Spec.v) whose probability is held in a double. *)
Definition good_double_row (r : input_row) : Prop := good_row r /\ is_double (r_prob r).

(** The signed confidence, every operation rounded; its limits at the probabilities 0 and 1. *)
Definition double_z (n : nat) (p : R) : R :=
  to_double (to_double (p - to_double (1 / INR n)) / to_double (sqrt (to_double (p * to_double (1 - p))))).
Definition double_confidence (cdf : R -> R) (n : nat) (p : R) : R :=
  if Req_EM_T p 0 then -1 else if Req_EM_T p 1 then 1 else to_double (2 * cdf (double_z n p) - 1).
(** The signed bet of a row; the side counts only for metalabelling. *)
Definition double_bet_of (cdf : R -> R) (n : nat) (meta : bool) (r : input_row) : R :=
  r_pred r * double_confidence cdf n (r_prob r) * (if meta then r_side r else 1).
Definition double_position_of (cdf : R -> R) (n : nat) (meta : bool) (r : input_row) : position :=
  ((r_time r, r_end r), double_bet_of cdf n meta r).

(** [v] is a mean of the numbers in double precision: a sum in some order and grouping, rounded at every addition, divided by their
    number; 0 if there are none. *)
Definition double_mean (l : list R) (v : R) : Prop :=
  (l = [] /\ v = 0) \/ (l <> [] /\ exists s, added l s /\ nearest (s / INR (List.length l)) v).

(** The configurations whose arguments are usable: at least two and at most 2^53 classes, a step in (0, 1) if one is needed, and the
    column of the averages under its only working name (C36). *)
Definition usable (c : bet_cfg) : Prop :=
  (2 <= num_classes c)%nat /\ (Z.of_nat (num_classes c) <= 2 ^ 53)%Z /\
  (discretise c = true -> exists s, step_size c = Some s /\ is_double s /\ 0 < s < 1) /\
  (average_active c = true -> bet_size_column_name c = "bet_size"%string).
