(** Model of mizarlabs/model/model_selection.py: combinatorial purged cross-validation. *)
From Verif Require Import Prelude.
From Verif Require Export Rounding_Model.

(** * Integer division through a double: [int(a / b)] *)

(** Python [int(a / b)] for integers a >= 0, b > 0: the true division of two integers is the correctly rounded
    double (53 significant bits) and raises OverflowError above the largest double; [int] truncates.
    Simplification: the subnormal range is not distinguished (its values truncate to 0 either way). *)
Definition int_truediv (a b : Z) : result Z :=
  if (a =? 0)%Z then Ok 0%Z else
  let e0 := (Z.log2 a - Z.log2 b - 52)%Z in
  let e := if (a * 2 ^ Z.max 0 (- e0) <? 2 ^ 52 * (b * 2 ^ Z.max 0 e0))%Z then (e0 - 1)%Z else e0 in
  let m := round_half_even (a * 2 ^ Z.max 0 (- e)) (b * 2 ^ Z.max 0 e) in
  let v := if (0 <=? e)%Z then (m * 2 ^ e)%Z else (m / 2 ^ (- e))%Z in
  if (2 ^ 1024 <=? v)%Z then Err OverflowError else Ok v.

(** `math.factorial`, lines 117-118 and 368: ValueError on negative arguments. *)
Fixpoint factZ (n : nat) : Z := match n with O => 1%Z | S m => (Z.of_nat n * factZ m)%Z end.
Definition factorial (z : Z) : result Z :=
  if (z <? 0)%Z then Err ValueError else Ok (factZ (Z.to_nat z)).

(** * The cross-validator object *)

(** Attributes of a constructed CombPurgedKFoldCV. Times are nanoseconds since the epoch; a missing
    evaluation time (NaT) is [None]. *)
Record cv := {
  n_splits : Z;
  n_groups : nat;
  n_test_splits : nat;
  pred_times : list Z;
  eval_times : list (option Z);
  embargo_td : Z
}.

(** CombPurgedKFoldCV.__init__ (lines 105-147) including BaseTimeSeriesCrossValidator.__init__ (38-51) and the
    check of scikit-learn's _BaseKFold that n_splits is at least 2. [None] stands for a times argument that is
    not a pandas Series. Simplification: n_test_splits and the embargo already have the right Python types. *)
Definition make_cv (groups tests : Z) (pred : option (list Z)) (evals : option (list (option Z)))
    (emb : Z) : result cv :=
  do fg <- factorial groups ;;
  do ft <- factorial tests ;;
  do fd <- factorial (groups - tests) ;;
  do ns <- int_truediv fg (ft * fd) ;;
  if (ns <=? 1)%Z then Err ValueError else
  match pred with
  | None => Err ValueError
  | Some p =>
    match evals with
    | None => Err ValueError
    | Some ev =>
      if ((tests <=? 0) || (groups - 1 <? tests))%Z then Err ValueError else
      if (emb <? 0)%Z then Err ValueError else
      Ok {| n_splits := ns; n_groups := Z.to_nat groups; n_test_splits := Z.to_nat tests;
            pred_times := p; eval_times := ev; embargo_td := emb |}
    end
  end.

(** `np.array_split(ary, k)`, line 162: the first (n mod k) pieces have n/k + 1 elements, the others n/k;
    ValueError for k <= 0. *)
Definition section_sizes (n k : nat) : list nat :=
  repeat (S (n / k)) (n mod k) ++ repeat (n / k) (k - n mod k).
Fixpoint cut {A} (sizes : list nat) (l : list A) : list (list A) :=
  match sizes with
  | [] => []
  | s :: r => firstn s l :: cut r (skipn s l)
  end.
Definition array_split {A} (l : list A) (k : nat) : result (list (list A)) :=
  if Nat.eqb k 0 then Err ValueError else Ok (cut (section_sizes (length l) k) l).

(** `(fold[0], fold[-1] + 1)`, line 161. *)
Definition fold_bound (fold : list nat) : result (nat * nat) :=
  match fold with
  | [] => Err IndexError
  | x :: _ => Ok (x, S (last fold x))
  end.

(** `itertools.combinations(l, k)`, line 166: lexicographic order of positions. *)
Fixpoint combinations {A} (k : nat) (l : list A) : list (list A) :=
  match k, l with
  | O, _ => [[]]
  | S _, [] => []
  | S k', x :: r => map (cons x) (combinations k' r) ++ combinations k r
  end.

(** `self.indices = np.arange(X.shape[0])`, line 157. *)
Definition indices (n : nat) : list nat := seq 0 n.

(** _test_fold_bounds (149-170), [n] = number of rows of X. *)
Definition fold_bounds (c : cv) (n : nat) : result (list (nat * nat)) :=
  do folds <- array_split (indices n) (n_groups c) ;;
  mapM fold_bound folds.
Definition test_fold_bounds (c : cv) (n : nat) : result (list (list (nat * nat))) :=
  do fb <- fold_bounds c n ;;
  Ok (rev (combinations (n_test_splits c) fb)).

(** One iteration of the loop of _compute_test_set (240-250). [acc] holds the merged bounds in reverse order
    (its head is test_fold_bounds[-1]). *)
Definition test_set_step (n : nat) (st : list (nat * nat) * list nat) (b : nat * nat)
  : list (nat * nat) * list nat :=
  let '(acc, ti) := st in
  let '(fs, fe) := b in
  let acc' := match acc with
              | [] => [(fs, fe)]
              | (s0, e0) :: r => if Nat.eqb fs e0 then (s0, fe) :: r else (fs, fe) :: acc
              end in
  (acc', union1d ti (slice fs fe (indices n))).
(** _compute_test_set (222-251). *)
Definition compute_test_set (n : nat) (fbl : list (nat * nat)) : list (nat * nat) * list nat :=
  let '(acc, ti) := fold_left (test_set_step n) fbl ([], []) in (rev acc, ti).

(** Comparison of a possibly missing time with a time: False for NaT. *)
Definition ot_ltb (a : option Z) (b : Z) : bool := match a with Some x => (x <? b)%Z | None => false end.
Definition ot_leb_r (a : Z) (b : option Z) : bool := match b with Some y => (a <=? y)%Z | None => false end.

(** purge (301-334). *)
Definition purge (c : cv) (n : nat) (train : list nat) (fs fe : nat) : result (list nat) :=
  do t0 <- get (pred_times c) fs ;;
  do before <- mask_select (indices n) (map (fun e => ot_ltb e t0) (eval_times c)) ;;
  let train1 := intersect1d train before in
  let train2 := intersect1d train (skipn fe (indices n)) in
  Ok (train1 ++ train2).

(** `Series.max()` on times: NaT values are skipped, NaT if there is nothing else. *)
Definition ot_max (l : list (option Z)) : option Z :=
  fold_left (fun acc x => match acc, x with
                          | Some a, Some b => Some (Z.max a b)
                          | Some a, None => Some a
                          | None, x => x
                          end) l None.

(** embargo (254-298). *)
Definition embargo (c : cv) (n : nat) (train test : list nat) (fe : nat) : result (list nat) :=
  do evs <- mapM (get (eval_times c)) (firstn fe test) ;;
  let bound := option_map (fun t => t + embargo_td c)%Z (ot_max evs) in
  let min_train_index := length (filter (fun p => ot_leb_r p bound) (pred_times c)) in
  if Nat.ltb min_train_index (length (indices n)) then
    let allowed := firstn fe (indices n) ++ skipn min_train_index (indices n) in
    Ok (intersect1d train allowed)
  else Ok train.

(** _compute_train_set (197-220). *)
Definition compute_train_set (c : cv) (n : nat) (bounds : list (nat * nat)) (test : list nat)
  : result (list nat) :=
  foldM (fun train b =>
           do p <- purge c n train (fst b) (snd b) ;;
           embargo c n p test (snd b))
        (setdiff1d (indices n) test) bounds.

(** split (172-195): the list of (train, test) pairs in the order in which they are yielded. *)
Definition split (c : cv) (n : nat) : result (list (list nat * list nat)) :=
  do sel <- test_fold_bounds c n ;;
  mapM (fun fbl =>
          let '(bounds, test) := compute_test_set n fbl in
          do train <- compute_train_set c n bounds test ;;
          Ok (train, test)) sel.

(** * Backtest paths *)

(** compute_back_test_paths (348-368). *)
Definition compute_back_test_paths (ns : Z) (k : nat) : result Z :=
  let den := fold_left (fun d i => d * (ns - Z.of_nat i))%Z (seq 1 (k - 1)) 1%Z in
  do f <- factorial (Z.of_nat k - 1) ;;
  int_truediv den f.

(** One predicted sub test set (lines 412-435): the split that produced it and its row positions.
    Simplification: the fitted predictions themselves are represented by the number of the split whose model
    made them; fitting and predicting (lines 405-428) do not influence which rows go where. *)
Record subtest := { st_split : nat; st_rows : list nat }.

(** bound_pred_dict (398, 432-435): insertion-ordered dictionary from block start to the sub tests. *)
Fixpoint dict_append (d : list (nat * list subtest)) (k : nat) (x : subtest) : list (nat * list subtest) :=
  match d with
  | [] => [(k, [x])]
  | (k', l) :: r => if Nat.eqb k k' then (k', l ++ [x]) :: r else (k', l) :: dict_append r k x
  end.

(** Lines 412-435 for one split [idx]. *)
Definition add_split (idx : nat) (bs : list (nat * nat)) (test : list nat) (d : list (nat * list subtest))
  : list (nat * list subtest) :=
  fold_left (fun d b =>
    let part := filter (fun i => Nat.leb (fst b) i && Nat.ltb i (snd b)) test in
    dict_append d (fst b) {| st_split := idx; st_rows := part |}) bs d.

Fixpoint build_dict (idx : nat) (l : list (list (nat * nat) * list nat)) (d : list (nat * list subtest))
  : list (nat * list subtest) :=
  match l with
  | [] => d
  | (bs, test) :: r => build_dict (S idx) r (add_split idx bs test d)
  end.

(** `list.pop()`. *)
Definition pop {A} (l : list A) : result (A * list A) :=
  match rev l with
  | [] => Err IndexError
  | x :: r => Ok (x, rev r)
  end.

(** Lines 442-449. [shuf p k l] is the outcome of random.shuffle on the list of key [k] in path [p].
    A path is the list of popped sub tests in dictionary order. *)
Fixpoint one_path (shuf : nat -> list subtest -> list subtest) (d : list (nat * list subtest))
  : result (list subtest * list (nat * list subtest)) :=
  match d with
  | [] => Ok ([], [])
  | (k, l) :: r =>
    do xl <- pop (shuf k l) ;;
    do rr <- one_path shuf r ;;
    Ok (fst xl :: fst rr, (k, snd xl) :: snd rr)
  end.

Fixpoint paths_loop (shuf : nat -> nat -> list subtest -> list subtest) (i todo : nat)
    (d : list (nat * list subtest)) : result (list (list subtest)) :=
  match todo with
  | O => Ok []
  | S t =>
    do pd <- one_path (shuf i) d ;;
    do rest <- paths_loop shuf (S i) t (snd pd) ;;
    Ok (fst pd :: rest)
  end.

(** combinatorial_cross_validation_paths (372-451). *)
Definition cv_paths (c : cv) (n : nat) (shuf : nat -> nat -> list subtest -> list subtest)
  : result (list (list subtest)) :=
  do bounds <- test_fold_bounds c n ;;
  do sp <- split c n ;;
  let d := build_dict 0 (combine bounds (map snd sp)) [] in
  do np <- compute_back_test_paths (n_splits c) (n_test_splits c) ;;
  paths_loop shuf 0 (Z.to_nat np) d.

(** The rows of a path data frame (lines 443-447): which split predicted which sample, in order. *)
Definition path_predictions (path : list subtest) : list (nat * nat) :=
  flat_map (fun st => map (pair (st_split st)) (st_rows st)) path.
