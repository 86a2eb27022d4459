(** Vocabulary: usable labels. *)
From Coq Require Import List ZArith.
Import ListNotations.

(** A time at which a label starts or ends. *)
Definition boundary (samples : list (Z * Z)) (t : Z) : Prop := exists s e, In (s, e) samples /\ (t = s \/ t = e).
