(** Vocabulary for stating the cross-validation properties, independent of how the code computes things. *)
From Verif Require Import Prelude.

(** Number of k-element subsets of an n-element set (Pascal's rule). *)
Fixpoint choose (n k : nat) : nat :=
  match n, k with
  | _, O => 1
  | O, S _ => 0
  | S n', S k' => choose n' k' + choose n' k
  end.

(** [v] is the double nearest to the integer [q >= 2^53]: a multiple of the spacing 2^e of the doubles around q (they have 53
    significant bits), at most half that spacing away from it, and in case of a tie an even multiple. *)
Definition nearest_double (q v : Z) : Prop :=
  exists e m, (1 <= e)%Z /\ (2 ^ 52 * 2 ^ e <= q < 2 ^ 53 * 2 ^ e)%Z /\ v = (m * 2 ^ e)%Z /\ (2 * Z.abs (v - q) <= 2 ^ e)%Z /\
    ((2 * Z.abs (v - q))%Z = (2 ^ e)%Z -> Z.even m = true).

(** [bounds] cuts 0..n-1 into [g] consecutive non-empty blocks of almost equal size. *)
Definition near_equal_partition (n g : nat) (bounds : list (nat * nat)) : Prop :=
  length bounds = g /\
  (forall s e, In (s, e) bounds -> s < e <= n) /\
  (* consecutive: it starts at 0, ends at n and each block starts where the previous one ends *)
  (forall s e, nth_error bounds 0 = Some (s, e) -> s = 0) /\
  (forall s e, nth_error bounds (g - 1) = Some (s, e) -> e = n) /\
  (forall j s e s' e', nth_error bounds j = Some (s, e) -> nth_error bounds (S j) = Some (s', e') -> s' = e) /\
  (* every sample is in exactly one block *)
  (forall i, i < n -> exists! j, exists s e, nth_error bounds j = Some (s, e) /\ s <= i < e) /\
  (* sizes differ by at most one *)
  (forall s e s' e', In (s, e) bounds -> In (s', e') bounds -> e - s <= S (e' - s')).

(** A set of [k] of the [g] groups, given as the increasing list of their numbers. *)
Definition group_choice (g k : nat) (G : list nat) : Prop :=
  increasing G /\ length G = k /\ (forall x, In x G -> x < g).

(** [T] lists exactly the samples of the chosen groups. *)
Definition samples_of_groups (bounds : list (nat * nat)) (G T : list nat) : Prop :=
  increasing T /\
  forall i, In i T <-> exists x s e, In x G /\ nth_error bounds x = Some (s, e) /\ s <= i < e.

(** [s, e) is a maximal run of consecutive members of [T]. *)
Definition maximal_block (T : list nat) (s e : nat) : Prop :=
  s < e /\ (forall i, s <= i < e -> In i T) /\ ~ In e T /\ (forall p, S p = s -> ~ In p T).

(** Non-decreasing prediction times. *)
Definition non_decreasing (l : list Z) : Prop :=
  forall i j x y, i <= j -> nth_error l i = Some x -> nth_error l j = Some y -> (x <= y)%Z.

(** Labels do not end before they start (where an end is known). *)
Definition ends_after_start (pred : list Z) (ev : list (option Z)) : Prop :=
  forall i x y, nth_error pred i = Some x -> nth_error ev i = Some (Some y) -> (x <= y)%Z.

(** [m] is the latest known time among those of the samples [idx]. *)
Definition latest (ev : list (option Z)) (idx : list nat) (m : Z) : Prop :=
  (exists i, In i idx /\ nth_error ev i = Some (Some m)) /\
  (forall i y, In i idx -> nth_error ev i = Some (Some y) -> (y <= m)%Z).

(** One out-of-sample prediction: the number of the split whose model made it and the sample it is for. *)
Definition prediction : Type := nat * nat.
