(** Vocabulary for the bet-sizing properties. *)
From Coq Require Import Reals String.
From Verif Require Import Series Weights_Spec Bet_Model.
Local Open Scope nat_scope.

(** What is assumed of the cumulative distribution function: increasing, symmetric, strictly between 0 and 1. *)
Definition cdf_ok (cdf : R -> R) : Prop :=
  (forall x y, (x < y)%R -> (cdf x < cdf y)%R) /\ (forall x, cdf (- x) = 1 - cdf x)%R /\ (forall x, 0 < cdf x < 1)%R.
(** The logistic function meets it. *)
Definition logistic (x : R) : R := (exp x / (1 + exp x))%R.

(** Test statistic of a probability against 1/n. *)
Definition z_stat (n : nat) (p : R) : R := ((p - 1 / INR n) / sqrt (p * (1 - p)))%R.
(** Signed confidence: 2 cdf(z) - 1, with its limits at probabilities 0 and 1. *)
Definition confidence (cdf : R -> R) (n : nat) (p : R) : R :=
  if Req_EM_T p 0 then (-1)%R else if Req_EM_T p 1 then 1%R else (2 * cdf (z_stat n p) - 1)%R.
Definition sign_value (v : R) : Prop := v = 1%R \/ v = (-1)%R \/ v = 0%R.

(** A position: open from [start] until [end] (until now if there is none). *)
Definition position := (Z * option Z * R)%type.
Definition p_start (p : position) : Z := fst (fst p).
Definition p_end (p : position) : option Z := snd (fst p).
Definition p_bet (p : position) : R := snd p.
Definition active (t : Z) (p : position) : bool :=
  (p_start p <=? t)%Z && match p_end p with None => true | Some e => (t <? e)%Z end.
Definition active_bets (ps : list position) (t : Z) : list R := map p_bet (filter (active t) ps).
(** Mean of the active bets, 0 if there is none. *)
Definition mean_active (ps : list position) (t : Z) : R :=
  match active_bets ps t with [] => 0%R | l => (rsum l / INR (List.length l))%R end.
(** The times at which a position opens or closes. *)
Definition change_point (ps : list position) (t : Z) : Prop := exists p, In p ps /\ (p_start p = t \/ p_end p = Some t).

(** Times given in whole milliseconds; positions that end in 1970 or later. *)
Definition whole_ms (t : Z) : Prop := (t mod 1000000 = 0)%Z.
Definition clean_times (ps : list position) : Prop :=
  forall p, In p ps -> whole_ms (p_start p) /\ forall e, p_end p = Some e -> whole_ms e /\ (0 <= e)%Z.

(** [v] is a nearest multiple of [u] to [x]. *)
Definition nearest_multiple (u x v : R) : Prop := exists k : Z, v = (IZR k * u)%R /\ (Rabs (v - x) <= u / 2)%R.

(** An input row with its numbers: time, probability, prediction, side, end. *)
Record input_row := { r_time : Z; r_prob : R; r_pred : R; r_side : R; r_end : option Z }.
(** Probabilities in [0, 1]; predictions and sides in {-1, 0, 1}. *)
Definition good_row (r : input_row) : Prop := (0 <= r_prob r <= 1)%R /\ sign_value (r_pred r) /\ sign_value (r_side r).
(** The signed bet of a row; the side counts only for metalabelling. *)
Definition bet_of (cdf : R -> R) (n : nat) (meta : bool) (r : input_row) : R :=
  (r_pred r * confidence cdf n (r_prob r) * (if meta then r_side r else 1))%R.
Definition position_of (cdf : R -> R) (n : nat) (meta : bool) (r : input_row) : position :=
  ((r_time r, r_end r), bet_of cdf n meta r).

(** Such rows as an input frame of the transformer, with all columns present. *)
Definition brow_of (r : input_row) : brow :=
  {| b_time := r_time r; b_prob := Fin (r_prob r); b_pred := Fin (r_pred r); b_side := Fin (r_side r); b_end := r_end r |}.
Definition frame_of (rows : list input_row) : bframe :=
  {| has_prob := true; has_pred := true; has_side := true; has_end := true; b_rows := map brow_of rows |}.
(** A position as a row of signals. *)
Definition signal_of (p : position) : sig := {| s_start := p_start p; s_end := p_end p; s_bet := Fin (p_bet p) |}.
