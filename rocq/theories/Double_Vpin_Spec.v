(** Vocabulary for VPIN in double precision. *)
From Coq Require Import Reals ZArith QArith Qreals List.
From Verif Require Import Prelude Num Double_Model Double_Spec Double_Vpin_Model.
Import ListNotations.

(** The sizes of the values in the window of the last [w] rows up to row [i], in ticks; a missing value has none. *)
Definition window_size (w : nat) (l : list (option Z)) (i : nat) : Z :=
  fold_right Z.add 0%Z (map (fun v => match v with Some z => Z.abs z | None => 0%Z end) (slice (i + 1 - w) (i + 1) l)).
(** Bars with bought and sold volume in ticks; [None] is a bar without data. *)
Definition bought (bars : list (option (Z * Z))) : list (option Z) := map (option_map fst) bars.
Definition sold (bars : list (option (Z * Z))) : list (option Z) := map (option_map snd) bars.
Definition traded (bars : list (option (Z * Z))) : list (option Z) := map (option_map (fun p => fst p + snd p)%Z) bars.

(** [y] is the exact value [x] rounded to a nearest double; missing and infinite values agree. *)
Definition rounds_to (x y : ext R) : Prop :=
  match x with Fin a => exists b, y = Fin b /\ nearest a b | _ => y = x end.

(** VPIN of bars whose bought and sold volumes are decimal numbers, held as the nearest doubles; the total is their sum in doubles. *)
Definition decimal_vpin (w : nat) (bars : list (Q * Q)) : result (list (ext R)) :=
  @vpin_values R Arith_double w (map (fun p => Fin (to_double (to_double (Q2R (fst p)) + to_double (Q2R (snd p))))%R) bars)
    (map (fun p => Fin (to_double (Q2R (fst p)))) bars) (map (fun p => Fin (to_double (Q2R (snd p)))) bars).
