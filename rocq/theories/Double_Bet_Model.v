(** Bet sizing (mizarlabs/transformers/trading/bet_sizing.py) in the arithmetic that numpy, pandas and numba use: Bet_Model.v with every
    rounding. Simplifications: as in Double_Model.v (no overflow, no signed zero) and Bet_Model.v. *)
From Coq Require Import Reals String.
From Verif Require Import Series Weights_Model Bet_Model Double_Model.
Local Open Scope nat_scope.

(** * discretise_signal, lines 229-248 *)

(** `Series.round(3)`, line 242: numpy multiplies by 1000, rounds to an integer and divides by 1000. The rounding of a double to an
    integer ([round0]) needs no further rounding. *)
Definition round3_double (x : ext R) : ext R :=
  match x with Fin v => Fin (to_double (IZR (rint (to_double (v * 1000))) / 1000)) | _ => x end.
(** Lines 242-246 for one value. *)
Definition discretise_value_double (step : R) (x : ext R) : ext R :=
  let d := round3_double (@emul R Arith_double (round0 (@ediv R Arith_double x (Fin step))) (Fin step)) in
  let d := if eltb (Fin 1%R) d then Fin 1%R else d in
  if eltb d (Fin (-1)%R) then Fin (-1)%R else d.
(** Lines 229-248. *)
Definition discretise_signal_double (step : R) (signal : list (Z * ext R)) : result (list (Z * ext R)) :=
  do _ <- raise_if (negb (step_ok step)) AssertionError ;;
  Ok (map (fun p => (fst p, discretise_value_double step (snd p))) signal).

(** * avg_active_signals, lines 142-226 *)

(** One iteration of lines 212-224; numba's `np.mean` adds from left to right, starting from 0, and divides by the length. *)
Definition avg_at_double (bets : list (ext R)) (starts ends : list Z) (t : Z) : ext R :=
  let mask := zipw (fun s e => (s <=? t)%Z && ((t <? e)%Z || (e <? 0)%Z)) starts ends in
  let active := mask_sel bets mask in
  match active with
  | [] => Fin 0%R
  | _ => @ediv R Arith_double (@esum R Arith_double active) (Fin (INR (List.length active)))
  end.
(** Lines 160-183. *)
Definition avg_active_signals_double (signals : list sig) : list (Z * ext R) :=
  let ends := flat_map (fun s => match s_end s with Some e => [e] | None => [] end) signals in
  let times := np_uniqueZ (ends ++ map s_start signals) in
  combine times (map (avg_at_double (map s_bet signals) (map (fun s => to_ms (s_start s)) signals) (map (fun s => to_timestamp (s_end s)) signals))
    (map to_ms times)).

(** * BetSizingFromProbabilities *)

(** `x ** 0.5` (line 110): numpy computes a correctly rounded square root. *)
Definition pow_half_double (v : ext R) : ext R := match pow_half v with Fin s => Fin (to_double s) | x => x end.
(** Lines 105-115 for one row; [cdf] is what `norm.cdf` returns for a double. *)
Definition signed_bet_double (cdf : R -> R) (n : nat) (r : brow) : ext R :=
  let p := b_prob r in
  let z := @ediv R Arith_double (@esub R Arith_double p (Fin (to_double (1 / INR n))))
    (pow_half_double (@emul R Arith_double p (@esub R Arith_double (Fin 1%R) p))) in
  @emul R Arith_double (b_pred r) (@esub R Arith_double (@emul R Arith_double (Fin 2%R) (norm_cdf cdf z)) (Fin 1%R)).

(** _transform, lines 100-139. *)
Definition bet_transform_double_ (cdf : R -> R) (c : bet_cfg) (X : bframe) : result (list (Z * ext R)) :=
  do _ <- raise_if (negb (has_prob X && has_pred X)) AssertionError ;;
  do _ <- raise_if (Nat.eqb (num_classes c) 0) ZeroDivisionError ;;
  let bets := map (fun r => (r, signed_bet_double cdf (num_classes c) r)) (b_rows X) in
  do bets <-
    (if meta_labeling c then
       do _ <- raise_if (negb (has_side X)) KeyError ;;
       do _ <- raise_if (negb (forallb known_side (b_rows X))) AssertionError ;;
       Ok (map (fun p => (fst p, @emul R Arith_double (snd p) (b_side (fst p)))) bets)
     else Ok bets) ;;
  do signal <-
    (if average_active c then
       do _ <- raise_if (negb (has_end X)) KeyError ;;
       do _ <- raise_if (negb (String.eqb (bet_size_column_name c) "bet_size")) KeyError ;;
       Ok (avg_active_signals_double (map (fun p => {| s_start := b_time (fst p); s_end := b_end (fst p); s_bet := snd p |}) bets))
     else Ok (map (fun p => (b_time (fst p), snd p)) bets)) ;;
  do signal <-
    (if discretise c then
       match step_size c with Some s => discretise_signal_double s signal | None => Err TypeError end
     else Ok signal) ;;
  Ok (map (fun p => (fst p, eabs (snd p))) signal).

(** transform, lines 25-32. *)
Definition bet_transform_double (cdf : R -> R) (c : bet_cfg) (X : bframe) : result (list (Z * ext R)) :=
  do signal <- bet_transform_double_ cdf c X ;;
  do _ <- raise_if (negb (forallb (fun p => eleb (Fin (-1)%R) (snd p)) signal)) AssertionError ;;
  do _ <- raise_if (negb (forallb (fun p => eleb (snd p) (Fin 1%R)) signal)) AssertionError ;;
  Ok signal.
