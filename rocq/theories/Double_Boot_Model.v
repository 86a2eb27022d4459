(** The sequential bootstrap in the arithmetic that numpy and scipy use (mizarlabs/model/bootstrapping.py:81-195): the functions of
    Boot_Model.v with every rounding. Simplifications: as in Double_Model.v; counts are below 2^32 (np.uint32 does not wrap). *)
From Coq Require Import Reals ZArith List.
From Flocq Require Import Core.
From Verif Require Import Prelude Boot_Model Double_Model.
Import ListNotations.
Local Open Scope R_scope.

(** Column sums of a scipy csr matrix (`ones * matrix`): one addition per stored entry, in the order of the rows. *)
Definition seq_sum (l : list R) : R := fold_left (fun s x => to_double (s + x)) l 0.

(** `sums / counts`, lines 94 and 135. *)
Definition mean_double (l : list R) : option R :=
  match l with [] => None | _ => Some (to_double (seq_sum l / INR (length l))) end.

(** calc_average_uniqueness, lines 81-95: `1 / concurrent_events` is an array of doubles. *)
Definition conc_count (m : mat) (t : nat) : nat := length (filter (entry m t) (all_cols m)).
Definition calc_average_uniqueness_double (m : mat) : list (option R) :=
  map (fun j => mean_double (map (fun t => to_double (1 / INR (conc_count m t))) (filter (fun t => entry m t j) (all_rows m))))
      (all_cols m).

(** _calc_update_avg_unique, lines 98-136: the counts and their inverses are np.float32; the product with the np.uint32 matrix is
    float64. *)
Definition partial_count (m : mat) (boot : list nat) (t : nat) : nat := length (filter (entry m t) boot).
Definition conc_per_sample_single (m : mat) (boot : list nat) (t j : nat) : R :=
  let own := if entry m t j then 1%nat else 0%nat in
  let p := partial_count m boot t in
  if Nat.eqb p 0 then to_single (INR own) else to_single (1 / to_single (INR (own + p))).
Definition calc_update_avg_unique_double (m : mat) (samples boot : list nat) : list (option R) :=
  map (fun j => mean_double (map (fun t => to_double (1 * conc_per_sample_single m boot t j)) (filter (fun t => entry m t j) (all_rows m)))) samples.

(** `avg_unique / np.sum(avg_unique)`, lines 166 and 182; [np_sum] is the order in which np.sum adds. *)
Definition all_some_R (l : list (option R)) : option (list R) :=
  fold_right (fun x acc => match x, acc with Some q, Some r => Some (q :: r) | _, _ => None end) (Some []) l.
Definition normalise_double (np_sum : list R -> R) (l : list (option R)) : option (list R) :=
  option_map (fun qs => map (fun q => to_double (q / np_sum qs)) qs) (all_some_R l).

(** RandomState.choice with probabilities (numpy/random/mtrand.pyx): Kahan's sum has to be within 2^-26 of one; then uniform numbers
    are looked up in the normalised cumulative sums. *)
Definition kahan_step (sc : R * R) (x : R) : R * R :=
  let '(s, c) := sc in
  let y := to_double (x - c) in
  let t := to_double (s + y) in
  (t, to_double (to_double (t - s) - y)).
Definition kahan_sum (l : list R) : R :=
  match l with [] => 0 | x :: r => fst (fold_left kahan_step r (x, 0)) end.
Fixpoint cumsum_from (s : R) (l : list R) : list R :=
  match l with [] => [] | x :: r => let s' := to_double (s + x) in s' :: cumsum_from s' r end.
Definition cdf (p : list R) : list R :=
  let c := match p with [] => [] | x :: r => x :: cumsum_from x r end in
  map (fun x => to_double (x / last c 0)) c.
(** `cdf.searchsorted(u, side="right")` on a sorted array: the number of entries that are at most [u]. *)
Definition searchsorted (c : list R) (u : R) : nat := length (filter (fun x => if Rle_dec x u then true else false) c).
Definition choice_double (uniform : nat -> nat -> list R) (i : nat) (prob : option (list R)) (size : nat) : result (list R * list nat) :=
  match prob with
  | None => Err ValueError
  | Some p =>
    if Nat.eqb (length p) 0 then Err ValueError else
    if existsb (fun x => if Rlt_dec x 0 then true else false) p then Err ValueError else
    if Rlt_dec (/ 2 ^ 26) (Rabs (to_double (kahan_sum p - 1))) then Err ValueError else
    Ok (p, map (searchsorted (cdf p)) (uniform i size))
  end.

(** `int(np.ceil(sample_length / update_probs_every))`, line 171: the quotient of two integers is rounded to a double first. *)
Definition rounds_double (len u : Z) : nat := Z.to_nat (Zceil (to_double (IZR len / IZR u))).

(** The loop, lines 158-195, as in Boot_Model.v. *)
Record dstate := {
  d_boot : list nat;
  d_avg : list (option R);
  d_prob : option (list R);
  d_impacted : list nat;
  d_log : list (list R * list nat)
}.
Definition round_double (np_sum : list R -> R) (m : mat) (uniform : nat -> nat -> list R) (len u : Z) (i : nat) (st : dstate) : result dstate :=
  let '(avg1, prob1) :=
    if Nat.ltb 0 (length (d_impacted st)) then
      let rows := np_unique (d_impacted st) in
      let to_update := np_unique (samples_on_rows m rows) in
      let a := assign_at (d_avg st) to_update (calc_update_avg_unique_double m to_update (d_boot st)) in
      (a, normalise_double np_sum a)
    else (d_avg st, d_prob st) in
  do pc <- choice_double uniform i prob1 (Z.to_nat (Z.min (len - Z.of_nat i * u) u)) ;;
  Ok {| d_boot := d_boot st ++ snd pc; d_avg := avg1; d_prob := prob1;
        d_impacted := rows_of_samples m (snd pc); d_log := d_log st ++ [pc] |}.
Definition initial_double (np_sum : list R -> R) (m : mat) : dstate :=
  let ones := repeat (Some 1) (ncols m) in
  {| d_boot := []; d_avg := ones; d_prob := normalise_double np_sum ones; d_impacted := []; d_log := [] |}.
Definition seq_bootstrap_double (np_sum : list R -> R) (m : mat) (uniform : nat -> nat -> list R) (sample_length : option Z) (u : Z)
  : result (list nat * list (list R * list nat)) :=
  let len := match sample_length with Some l => l | None => Z.of_nat (ncols m) end in
  if (u =? 0)%Z then Err ZeroDivisionError else
  do st <- foldM (fun st i => round_double np_sum m uniform len u i st) (initial_double np_sum m) (seq 0 (rounds_double len u)) ;;
  Ok (d_boot st, d_log st).
