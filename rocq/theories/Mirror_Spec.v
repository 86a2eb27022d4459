(** Rises and falls exchanged. *)
From Coq Require Import Reals QArith String.
From Verif Require Import Series Label_Model.
From Verif Require Feat_Model.
Local Open Scope nat_scope.

(** Two values on opposite sides of half of [b]: x' = b - x. *)
Definition mirrored (b : Q) (x x' : ext Q) : Prop :=
  match x, x' with
  | Fin v, Fin w => (w == b - v)%Q
  | PInf, NInf | NInf, PInf | NaN, NaN => True
  | _, _ => False
  end.

(** The opposite of a number; a missing one stays missing. *)
Definition opposite (x : ext R) : ext R :=
  match x with Fin v => Fin (- v)%R | PInf => NInf | NInf => PInf | NaN => NaN end.

(** Two frames with the same times and columns, except that every bet is on the opposite side. *)
Definition opposite_sides (y y' : frame R) : Prop :=
  f_index y' = f_index y /\
  column y' "side" = option_map (map opposite) (column y "side") /\
  forall name, name <> "side"%string -> column y' name = column y name.

(** The configuration with profit taking and stop loss exchanged. *)
Definition exchanged (cfg : config R) : config R :=
  {| n_expiration_bars := n_expiration_bars cfg; profit_taking_factor := stop_loss_factor cfg; stop_loss_factor := profit_taking_factor cfg;
     metalabeling := metalabeling cfg; close_column := close_column cfg; side_column := side_column cfg;
     volatility_adjusted := volatility_adjusted cfg; expiration_label := expiration_label cfg |}.

(** The label of a bet against the label of the opposite bet: a gain is a loss; neither, neither. *)
Definition other_label (l l' : ext R) : Prop := (l = Fin 1%R /\ l' = Fin 0%R) \/ (l = Fin 0%R /\ l' = Fin 1%R) \/ (l = NaN /\ l' = NaN).

(** Two frames of bars with the same times and columns, except that the column [name] has the opposite values. *)
Definition opposite_column (name : string) (X X' : Feat_Model.frame) : Prop :=
  Feat_Model.f_index X' = Feat_Model.f_index X /\
  Feat_Model.lookup name X' = option_map (map opposite) (Feat_Model.lookup name X) /\
  forall other, other <> name -> Feat_Model.lookup other X' = Feat_Model.lookup other X.
