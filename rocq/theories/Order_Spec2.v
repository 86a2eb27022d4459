(** Bars moved in time by a whole number of milliseconds. *)
From Verif Require Import Series Label_Model Weights_Model.

Definition later (k t : Z) : Z := (t + k * 1000000)%Z.
Definition moved_bars {A} (k : Z) (y : frame A) : frame A := {| f_index := map (later k) (f_index y); f_cols := f_cols y |}.
Definition moved_label {A} (k : Z) (r : out_row A) : out_row A :=
  {| o_end := option_map (later k) (o_end r); o_vol := o_vol r; o_return := o_return r; o_label := o_label r |}.
Definition moved_row (k : Z) (r : wrow) : wrow := {| w_start := later k (w_start r); w_end := option_map (later k) (w_end r); w_close := w_close r |}.
