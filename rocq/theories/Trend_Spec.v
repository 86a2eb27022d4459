(** Vocabulary for the trend-scanning properties. *)
From Coq Require Import Reals.
From Verif Require Import Series OLS_Model OLS_Spec Trend_Model.
Local Open Scope nat_scope.

(** Price of the bar [i] places after bar [k]. *)
Definition price (y : list (Z * R)) (k i : nat) : R := nth (k + i) (map snd y) 0%R.

(** t-value of the trend fitted to the [w] bars from bar [k]; whether these bars lie on a straight line. *)
Definition t_of (y : list (Z * R)) (k w : nat) : R := trend_t w (price y k).
Definition straight (y : list (Z * R)) (k w : nat) : Prop := rss w (price y k) = 0%R.

(** [w] is the length, from [m] to [L] - 1, whose t-value is largest in absolute value, the shortest one on ties. *)
Definition best_window (y : list (Z * R)) (k m L w : nat) : Prop :=
  m <= w < L /\
  (forall v, m <= v < L -> (Rabs (t_of y k v) <= Rabs (t_of y k w))%R) /\
  (forall v, m <= v < w -> (Rabs (t_of y k v) < Rabs (t_of y k w))%R).

(** The sign of a number, as a number. *)
Definition sgn (x : R) : R := if Rlt_dec x 0 then (-1)%R else if Rlt_dec 0 x then 1%R else 0%R.

(** Prices rescaled and shifted. *)
Definition affine (a b : R) (y : list (Z * R)) : list (Z * R) := map (fun r => (fst r, (a * snd r + b)%R)) y.
(** A value multiplied by a number, missing values staying missing. *)
Definition times (c : R) (x : ext R) : ext R := match x with Fin v => Fin (c * v)%R | _ => x end.

(** The object's memory after a history of calls. *)
Definition after inv junk cfg (events : option (list Z)) (history : list (list (Z * R))) : option (list Z) :=
  fold_left (fun st y => fst (transform inv junk cfg st y)) history events.

(** An inverse for matrices of size one and two, to show that the assumptions on `np.linalg.inv` can be met. *)
Definition inv_small (M : mat) : result mat :=
  if negb (Nat.eqb (nc M) (nr M)) then Err ValueError else
  match nr M with
  | 1 => if Req_EM_T (at_ M 0 0) 0 then Err LinAlgError
         else Ok {| nr := 1; nc := 1; at_ := fun _ _ => (/ at_ M 0 0)%R |}
  | 2 => let d := (at_ M 0 0 * at_ M 1 1 - at_ M 0 1 * at_ M 1 0)%R in
         if Req_EM_T d 0 then Err LinAlgError
         else Ok {| nr := 2; nc := 2; at_ := fun i j =>
                    match i, j with
                    | O, O => (at_ M 1 1 / d)%R
                    | O, _ => (- at_ M 0 1 / d)%R
                    | _, O => (- at_ M 1 0 / d)%R
                    | _, _ => (at_ M 0 0 / d)%R
                    end |}
  | _ => Err LinAlgError
  end.

(** What the row of the event at time [t] must contain. *)
Definition row_ok (cfg : trend_cfg) (y : list (Z * R)) (t : Z) (r : trend_row) : Prop :=
  exists k p0, nth_error y k = Some (t, p0) /\ tr_start r = t /\
  ((k + t_window cfg <= length y /\
    exists w te pe, best_window y k (t_min cfg) (t_window cfg) w /\ nth_error y (k + w - 1) = Some (te, pe) /\
      tr_end r = Some te /\ tr_t r = Fin (t_of y k w) /\ tr_label r = Fin (sgn (t_of y k w)) /\
      (p0 <> 0%R -> tr_return r = Fin (pe / p0 - 1)%R))
   \/ (length y < k + t_window cfg /\ tr_end r = None /\ tr_t r = NaN /\ tr_label r = NaN /\ tr_return r = NaN)).

(** Two rows that agree except that t-value and label are multiplied by [c]; returns are not compared. *)
Definition row_times (c : R) (r r' : trend_row) : Prop :=
  tr_start r' = tr_start r /\ tr_end r' = tr_end r /\ tr_t r' = times c (tr_t r) /\ tr_label r' = times c (tr_label r).
