(** Shared vocabulary of the model: Python exceptions as values, slicing, the numpy set operations. *)
From Coq Require Export List Arith ZArith Bool Lia Sorting.Sorted.
Export ListNotations.

(** Python exception classes that the modelled code can raise. *)
Inductive exn :=
| ValueError | AssertionError | KeyError | IndexError | TypeError
| ZeroDivisionError | OverflowError | LinAlgError | AttributeError | NotFittedError | RuntimeError.

(** A call either returns a value or raises. *)
Inductive result (A : Type) := Ok (a : A) | Err (e : exn).
Arguments Ok {A} _.
Arguments Err {A} _.

Definition bind {A B} (r : result A) (f : A -> result B) : result B :=
  match r with Ok a => f a | Err e => Err e end.

Declare Scope result_scope.
Delimit Scope result_scope with result.
Notation "'do' x <- r ;; k" := (bind r (fun x => k))
  (at level 200, x pattern, r at level 100, k at level 200) : result_scope.
Open Scope result_scope.

Definition is_ok {A} (r : result A) : bool := match r with Ok _ => true | Err _ => false end.

(** [raise_if b e]: `if b: raise e`. *)
Definition raise_if (b : bool) (e : exn) : result unit := if b then Err e else Ok tt.

(** A list comprehension / loop whose body may raise: stops at the first exception. *)
Fixpoint mapM {A B} (f : A -> result B) (l : list A) : result (list B) :=
  match l with
  | [] => Ok []
  | x :: r => do y <- f x ;; do ys <- mapM f r ;; Ok (y :: ys)
  end.

(** A loop with an accumulator whose body may raise. *)
Fixpoint foldM {A B} (f : A -> B -> result A) (a : A) (l : list B) : result A :=
  match l with
  | [] => Ok a
  | x :: r => do a' <- f a x ;; foldM f a' r
  end.

(** `l[i]` for a non-negative position. *)
Definition get {A} (l : list A) (i : nat) : result A :=
  match nth_error l i with Some a => Ok a | None => Err IndexError end.

(** `l[i:j]` for non-negative positions (Python slices never raise). *)
Definition slice {A} (i j : nat) (l : list A) : list A := firstn (j - i) (skipn i l).

(** `l[mask]` with a boolean mask: numpy raises IndexError on a length mismatch. *)
Fixpoint mask_sel {A} (l : list A) (m : list bool) : list A :=
  match l, m with
  | x :: l', true :: m' => x :: mask_sel l' m'
  | _ :: l', false :: m' => mask_sel l' m'
  | _, _ => []
  end.
Definition mask_select {A} (l : list A) (m : list bool) : result (list A) :=
  if Nat.eqb (length l) (length m) then Ok (mask_sel l m) else Err IndexError.

(** `np.unique`: sorted, without repetitions. *)
Section SortUnique.
  Context {A : Type} (cmp : A -> A -> comparison).
  Fixpoint insert_u (x : A) (l : list A) : list A :=
    match l with
    | [] => [x]
    | y :: r => match cmp x y with
                | Lt => x :: l
                | Eq => l
                | Gt => y :: insert_u x r
                end
    end.
  Definition sort_unique (l : list A) : list A := fold_right insert_u [] l.
End SortUnique.

Definition np_unique (l : list nat) : list nat := sort_unique Nat.compare l.
Definition np_uniqueZ (l : list Z) : list Z := sort_unique Z.compare l.
Definition mem (x : nat) (l : list nat) : bool := existsb (Nat.eqb x) l.
Definition memZ (x : Z) (l : list Z) : bool := existsb (Z.eqb x) l.

(** `np.union1d`, `np.intersect1d`, `np.setdiff1d`: all return sorted arrays without repetitions. *)
Definition union1d (a b : list nat) : list nat := np_unique (a ++ b).
Definition intersect1d (a b : list nat) : list nat := np_unique (filter (fun x => mem x b) a).
Definition setdiff1d (a b : list nat) : list nat := np_unique (filter (fun x => negb (mem x b)) a).

(** Strictly increasing lists (hence also without repetitions). *)
Definition increasing : list nat -> Prop := StronglySorted lt.
Definition increasingZ : list Z -> Prop := StronglySorted Z.lt.
