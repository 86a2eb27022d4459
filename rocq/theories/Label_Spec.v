(** Vocabulary for stating the labelling properties. *)
From Coq Require Import String.
From Verif Require Import Series Label_Model.
Local Open Scope nat_scope.

(** The least element of a set of times. *)
Definition least (P : Z -> Prop) (t : Z) : Prop := P t /\ forall u, P u -> (t <= u)%Z.

(** Increasing timestamps after the epoch, whole milliseconds (in nanoseconds). *)
Definition valid_times (idx : list Z) : Prop :=
  increasingZ idx /\ forall t, In t idx -> (0 < t)%Z /\ (t mod 1000000 = 0)%Z.

(** A day, in nanoseconds. *)
Definition a_day : Z := (24 * 60 * 60 * 1000000000)%Z.

Section Spec.
  Context {A : Type} `{Arith A}.

  (** Return of a position of the given side opened at price [c0] when the price is [c]. *)
  Definition side_return (c0 side c : ext A) : ext A := emul (esub (ediv c c0) (Fin a1)) side.

  (** [t] is the time of a bar at or after bar [i] and before [until] at which the side return passes the test. *)
  Definition touch (idx : list Z) (close : list (ext A)) (i : nat) (until : Z) (side : ext A)
      (test : ext A -> bool) (t : Z) : Prop :=
    exists t0 c0 k c, nth_error idx i = Some t0 /\ nth_error close i = Some c0 /\
      nth_error idx k = Some t /\ nth_error close k = Some c /\
      (t0 <= t < until)%Z /\ test (side_return c0 side c) = true.

  (** Strictly below minus (strictly above) the factor times the volatility; a factor that is not positive means no barrier. *)
  Definition below_stop (factor : A) (vol r : ext A) : bool := altb a0 factor && eltb r (emul (Fin (aopp factor)) vol).
  Definition above_profit (factor : A) (vol r : ext A) : bool := altb a0 factor && eltb (emul (Fin factor) vol) r.

  (** Time of the vertical barrier: the bar [n] bars later, if any. *)
  Definition vertical (idx : list Z) (n : Z) (i : nat) (t : Z) : Prop :=
    exists p, Z.of_nat p = (Z.of_nat i + n)%Z /\ nth_error idx p = Some t.

  (** Where the search for a touch stops: at the vertical barrier or, without one, at the last bar. *)
  Definition search_end (idx : list Z) (n : Z) (i : nat) (t : Z) : Prop :=
    vertical idx n i t \/ ((forall u, ~ vertical idx n i u) /\ nth_error idx (length idx - 1) = Some t).

  (** Labels: sign of the return; success of a side-adjusted return. *)
  Definition sign_label (r : ext A) : ext A :=
    match r with
    | NaN => NaN
    | _ => if eltb r (Fin a0) then Fin (aopp a1) else if eltb (Fin a0) r then Fin a1 else Fin a0
    end.
  Definition success_label (r : ext A) : ext A :=
    if eltb (Fin a0) r then Fin a1 else if eltb r (Fin a0) then Fin a0 else NaN.

  (** Every column has one value per index entry. *)
  Definition well_formed (y : frame A) : Prop :=
    forall name col, column y name = Some col -> length col = length (f_index y).

  (** The side of event [i]: the column "side" if there is one, otherwise 1. *)
  Definition event_side (y : frame A) (i : nat) (s : ext A) : Prop :=
    match column y "side"%string with
    | Some l => nth_error l i = Some s
    | None => s = Fin a1
    end.

  (** The volatility used for event [i]: 1, or the daily volatility at the time of its bar, NaN if there is none. *)
  Definition event_volatility (daily_vol : list Z -> list (ext A) -> result (list (Z * ext A))) (cfg : config A) (y : frame A)
      (close : list (ext A)) (i : nat) (w : ext A) : Prop :=
    if volatility_adjusted cfg then
      exists v t, daily_vol (f_index y) close = Ok v /\ nth_error (f_index y) i = Some t /\
        w = match find (fun r => Z.eqb (fst r) t) v with Some r => snd r | None => NaN end
    else w = Fin a1.

  (** [t] is one of the three candidates for the end of event [i]. *)
  Definition barrier_time (idx : list Z) (close : list (ext A)) (i : nat) (n : Z) (pt sl : A) (vol side : ext A) (t : Z) : Prop :=
    vertical idx n i t \/
    exists e, search_end idx n i e /\
      (touch idx close i e side (below_stop sl vol) t \/ touch idx close i e side (above_profit pt vol) t).

  (** Some event ends. *)
  Definition some_end daily_vol (cfg : config A) (y : frame A) (close : list (ext A)) : Prop :=
    exists i s w t, i < length (f_index y) /\ event_side y i s /\ event_volatility daily_vol cfg y close i w /\
      barrier_time (f_index y) close i (n_expiration_bars cfg) (profit_taking_factor cfg) (stop_loss_factor cfg) w s t.

  (** Some stop-loss or profit-taking touch happens. *)
  Definition touched (idx : list Z) (close : list (ext A)) (i : nat) (n : Z) (pt sl : A) (vol side : ext A) : Prop :=
    exists e t, search_end idx n i e /\
      (touch idx close i e side (below_stop sl vol) t \/ touch idx close i e side (above_profit pt vol) t).
End Spec.

(** Two frames agree on their first [m] rows. *)
Definition agree_until {A} (m : nat) (y y' : frame A) : Prop :=
  firstn m (f_index y) = firstn m (f_index y') /\
  forall name, option_map (firstn m) (column y name) = option_map (firstn m) (column y' name).
