(** Model of mizarlabs/transformers/trading/bet_sizing.py. *)
From Coq Require Import Reals String.
From Verif Require Import Series Weights_Model.
Local Open Scope nat_scope.

(** convert_to_timestamp (transformers/utils.py:17-28) on possibly missing times: NaT is the smallest 64-bit integer. *)
Definition to_timestamp (t : option Z) : Z := to_ms (match t with Some v => v | None => - 2 ^ 63 end)%Z.

(** * discretise_signal (lines 229-248) *)

(** Rounding to the nearest integer, halves to the even one (`Series.round`). *)
Definition rint (x : R) : Z :=
  let f := Int_part x in
  let d := (x - IZR f)%R in
  if Rlt_dec d (1 / 2) then f
  else if Rlt_dec (1 / 2) d then (f + 1)%Z
  else if Z.even f then f else (f + 1)%Z.

(** Line 242 and the caps of lines 244-246, for one value. Simplification: exact arithmetic; an infinite value stays
    infinite under the rounding. *)
Definition round0 (x : ext R) : ext R := match x with Fin v => Fin (IZR (rint v)) | _ => x end.
Definition round3 (x : ext R) : ext R := match x with Fin v => Fin (IZR (rint (v * 1000)) / 1000)%R | _ => x end.
Definition discretise_value (step : R) (x : ext R) : ext R :=
  let d := round3 (emul (round0 (ediv x (Fin step))) (Fin step)) in
  let d := if eltb (Fin 1%R) d then Fin 1%R else d in
  if eltb d (Fin (-1)%R) then Fin (-1)%R else d.

Definition step_ok (step : R) : bool := if Rlt_dec 0 step then if Rlt_dec step 1 then true else false else false.
Definition discretise_signal (step : R) (signal : list (Z * ext R)) : result (list (Z * ext R)) :=
  do _ <- raise_if (negb (step_ok step)) AssertionError ;;
  Ok (map (fun p => (fst p, discretise_value step (snd p))) signal).

(** * avg_active_signals (lines 142-226) *)

(** A row of [signals]: index value, event end time, bet size. *)
Record sig := { s_start : Z; s_end : option Z; s_bet : ext R }.

(** One iteration of lines 212-224; [starts] and [ends] in milliseconds. *)
Definition avg_at (bets : list (ext R)) (starts ends : list Z) (t : Z) : ext R :=
  let mask := zipw (fun s e => (s <=? t)%Z && ((t <? e)%Z || (e <? 0)%Z)) starts ends in
  let active := mask_sel bets mask in
  match active with
  | [] => Fin 0%R
  | _ => ediv (esum active) (Fin (INR (List.length active)))
  end.

(** Lines 160-183. *)
Definition avg_active_signals (signals : list sig) : list (Z * ext R) :=
  let ends := flat_map (fun s => match s_end s with Some e => [e] | None => [] end) signals in
  let times := np_uniqueZ (ends ++ map s_start signals) in
  combine times (map (avg_at (map s_bet signals) (map (fun s => to_ms (s_start s)) signals) (map (fun s => to_timestamp (s_end s)) signals))
    (map to_ms times)).

(** * BetSizingFromProbabilities *)

(** A row of the input: index value and the values of the columns (of whatever name the transformer is given). *)
Record brow := { b_time : Z; b_prob : ext R; b_pred : ext R; b_side : ext R; b_end : option Z }.
(** The input: which of the columns exist, and its rows. Simplification: the index has no repetitions. *)
Record bframe := { has_prob : bool; has_pred : bool; has_side : bool; has_end : bool; b_rows : list brow }.

(** The constructor's arguments (lines 66-89). The names of the input columns only matter through the [has_] flags;
    [bet_size_column_name] is looked up in a frame whose column is always called "bet_size" (simplification: it is not
    the name of the end-time column). *)
Record bet_cfg := { num_classes : nat; average_active : bool; meta_labeling : bool; discretise : bool; step_size : option R;
                    bet_size_column_name : string }.

(** The checks of lines 91-98 (a step of zero counts as not given). *)
Definition bet_construct (c : bet_cfg) : result bet_cfg :=
  if discretise c then
    match step_size c with
    | None => Err AssertionError
    | Some s => if step_ok s then Ok c else Err AssertionError
    end
  else Ok c.

(** `norm.cdf` for a cumulative distribution function [cdf]; `x ** 0.5`. *)
Definition norm_cdf (cdf : R -> R) (x : ext R) : ext R :=
  match x with Fin z => Fin (cdf z) | PInf => Fin 1%R | NInf => Fin 0%R | NaN => NaN end.
Definition pow_half (v : ext R) : ext R := match v with NInf => PInf | _ => esqrt v end.

(** Lines 105-115 for one row. *)
Definition signed_bet (cdf : R -> R) (n : nat) (r : brow) : ext R :=
  let p := b_prob r in
  let z := ediv (esub p (Fin (1 / INR n)%R)) (pow_half (emul p (esub (Fin 1%R) p))) in
  emul (b_pred r) (esub (emul (Fin 2%R) (norm_cdf cdf z)) (Fin 1%R)).

Definition known_side (r : brow) : bool :=
  eeqb (b_side r) (Fin 1%R) || eeqb (b_side r) (Fin (-1)%R) || eeqb (b_side r) (Fin 0%R).

(** _transform, lines 100-139. *)
Definition bet_transform_ (cdf : R -> R) (c : bet_cfg) (X : bframe) : result (list (Z * ext R)) :=
  do _ <- raise_if (negb (has_prob X && has_pred X)) AssertionError ;;
  do _ <- raise_if (Nat.eqb (num_classes c) 0) ZeroDivisionError ;;
  let bets := map (fun r => (r, signed_bet cdf (num_classes c) r)) (b_rows X) in
  do bets <-
    (if meta_labeling c then
       do _ <- raise_if (negb (has_side X)) KeyError ;;
       do _ <- raise_if (negb (forallb known_side (b_rows X))) AssertionError ;;
       Ok (map (fun p => (fst p, emul (snd p) (b_side (fst p)))) bets)
     else Ok bets) ;;
  do signal <-
    (if average_active c then
       do _ <- raise_if (negb (has_end X)) KeyError ;;
       do _ <- raise_if (negb (String.eqb (bet_size_column_name c) "bet_size")) KeyError ;;
       Ok (avg_active_signals (map (fun p => {| s_start := b_time (fst p); s_end := b_end (fst p); s_bet := snd p |}) bets))
     else Ok (map (fun p => (b_time (fst p), snd p)) bets)) ;;
  do signal <-
    (if discretise c then
       match step_size c with Some s => discretise_signal s signal | None => Err TypeError end
     else Ok signal) ;;
  Ok (map (fun p => (fst p, eabs (snd p))) signal).

(** transform, lines 25-32. *)
Definition bet_transform (cdf : R -> R) (c : bet_cfg) (X : bframe) : result (list (Z * ext R)) :=
  do signal <- bet_transform_ cdf c X ;;
  do _ <- raise_if (negb (forallb (fun p => eleb (Fin (-1)%R) (snd p)) signal)) AssertionError ;;
  do _ <- raise_if (negb (forallb (fun p => eleb (snd p) (Fin 1%R)) signal)) AssertionError ;;
  Ok signal.
