(** Vocabulary for stating the bootstrapping properties. *)
From Verif Require Import QSum.

(** The number of elements of a list with a property. *)
Definition count {A} (p : A -> bool) (l : list A) : nat := length (filter p l).

(** A coverage table: [cov t j] says whether sample [j] covers row [t], for rows below [T]. *)
Section Coverage.
  Variables (T : nat) (cov : nat -> nat -> bool).

  (** The rows that a sample covers. *)
  Definition rows_of (j : nat) : list nat := filter (fun t => cov t j) (seq 0 T).

  (** Two samples share a row. *)
  Definition overlap (i j : nat) : Prop := exists t, t < T /\ cov t i = true /\ cov t j = true.

  (** Mean over the rows of sample [j] of 1/(number of the [N] samples that cover the row). *)
  Definition mean_inverse_concurrency (N j : nat) : Q :=
    qmean (map (fun t => / Qn (count (cov t) (seq 0 N)))%Q (rows_of j)).

  (** Uniqueness of sample [j] if it were added to the samples [drawn] (with repetitions): the mean over its rows
      of 1/(1 + number of draws covering the row). A sample without rows does not overlap with anything: 1. *)
  Definition uniqueness_after (drawn : list nat) (j : nat) : Q :=
    match rows_of j with
    | [] => 1%Q
    | rows => qmean (map (fun t => / (1 + Qn (count (cov t) drawn)))%Q rows)
    end.

  (** The draw probabilities of the sequential bootstrap, computed from scratch. *)
  Definition draw_probability (N : nat) (drawn : list nat) (j : nat) : Q :=
    (uniqueness_after drawn j / qsum (map (uniqueness_after drawn) (seq 0 N)))%Q.
End Coverage.

(** What a random generator may return: [size] positions of the (non-empty) probability vector. *)
Definition fair_choice (rng : nat -> list Q -> nat -> list nat) : Prop :=
  forall i p size, p <> [] -> length (rng i p size) = size /\ Forall (fun j => j < length p) (rng i p size).

(** The distinct times at which an indicator matrix has a row: sample starts, sample ends, and the bars between
    the first start and the last end. *)
Definition row_time (samples : list (Z * Z)) (bars : list Z) (t : Z) : Prop :=
  (exists s e, In (s, e) samples /\ (t = s \/ t = e)) \/
  (In t bars /\ (exists s e, In (s, e) samples /\ (s <= t)%Z) /\ (exists s e, In (s, e) samples /\ (t <= e)%Z)).

(** Samples none of whose times is missing. *)
Definition complete (samples : list (Z * Z)) : list (option Z * option Z) :=
  map (fun s => (Some (fst s), Some (snd s))) samples.

(** A label (start, end) is alive at a time. *)
Definition alive (t : Z) (s : Z * Z) : bool := (fst s <=? t)%Z && (t <=? snd s)%Z.
