(** Labels that overlap, and rows given in another order. *)
From Coq Require Import Permutation.
From Verif Require Import Prelude.

(** Two labels (start, end) share a moment. *)
Definition overlapping (l l' : Z * Z) : Prop := (fst l <= snd l' /\ fst l' <= snd l)%Z.
(** Two lists have the same labels around a label: every label that overlaps with it is in both or in none. *)
Definition same_around (l : Z * Z) (samples samples' : list (Z * Z)) : Prop := forall l', overlapping l l' -> (In l' samples <-> In l' samples').
(** The rows of a frame whose index are the starts. *)
Definition labelled (samples : list (Z * Z)) : list (Z * option Z) := map (fun s => (fst s, Some (snd s))) samples.

(** A time is before or after another, at millisecond resolution. *)
Definition before_ms (t t' : Z) : Prop := (t / 1000000 < t' / 1000000)%Z.
