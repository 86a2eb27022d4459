(** Prices in another unit: every price multiplied by the same positive number. *)
From Coq Require Import Reals QArith String.
From Verif Require Import Series Label_Model Weights_Model.
Local Open Scope nat_scope.

(** A price in another unit; infinities and missing values stay what they are. *)
Definition in_units {A} {HA : Arith A} (c : A) (x : ext A) : ext A :=
  match x with Fin v => Fin (amul c v) | other => other end.

(** Two frames with the same times and columns, except that the prices are in another unit. *)
Definition same_but_prices (c : R) (price_column : string) (y y' : frame R) : Prop :=
  f_index y' = f_index y /\
  column y' price_column = option_map (map (in_units c)) (column y price_column) /\
  forall name, name <> price_column -> column y' name = column y name.

(** Two tables of labelled bars that only differ in the unit of the prices. *)
Definition same_but_close (c : R) (X X' : list wrow) : Prop :=
  X' = map (fun r => {| w_start := w_start r; w_end := w_end r; w_close := in_units c (w_close r) |}) X.

(** Two series of rational numbers: x' = c * x + b. *)
Definition rescaled (c b : Q) (x x' : ext Q) : Prop :=
  match x, x' with
  | Fin v, Fin w => (w == c * v + b)%Q
  | PInf, PInf | NInf, NInf | NaN, NaN => True
  | _, _ => False
  end.
