(** A labelled trend on another clock. *)
From Coq Require Import Reals.
From Verif Require Import Series Trend_Model.

Definition retime_trend (f : Z -> Z) (r : trend_row) : trend_row :=
  {| tr_start := f (tr_start r); tr_end := option_map f (tr_end r); tr_t := tr_t r; tr_return := tr_return r; tr_label := tr_label r |}.
