(** The moving-average crossover with the rolling means as pandas 1.2 computes them in float64: pandas/_libs/window/aggregations.pyx, add_mean,
    remove_mean, calc_mean and roll_mean, with compensated (Kahan) sums. Generic in the numbers. The loop over the rows is that of Roll_Model. *)
From Coq Require Import Reals String.
From Verif Require Import Prelude Num Series Feat_Model Roll_Model Double_Vpin_Model.
Local Open Scope nat_scope.

Section Kahan.
  Context {A : Type} `{Arith A}.
  (** nobs, sum_x, compensation_add and compensation_remove; neg_ct. The sums are updated as in add_sum and remove_sum. *)
  Definition kmean : Type := kahan A * nat.
  (** add_mean. Simplification: no signed zero, so the sign bit is that of a negative number. *)
  Definition add_mean (s : kmean) (v : A) : kmean := (add_sum (fst s) v, if altb v a0 then S (snd s) else snd s).
  (** remove_mean. *)
  Definition remove_mean (s : kmean) (v : A) : kmean := (remove_sum (fst s) v, if altb v a0 then Nat.pred (snd s) else snd s).
  (** calc_mean, with minp = window. *)
  Definition calc_mean (w : nat) (s : kmean) : ext A :=
    let nobs := k_nobs (fst s) in
    if (Nat.leb w nobs && Nat.ltb 0 nobs)%bool then
      let result := adiv (k_sum (fst s)) (anat nobs) in
      if (Nat.eqb (snd s) 0 && altb result a0)%bool then Fin a0
      else if (Nat.eqb (snd s) nobs && altb a0 result)%bool then Fin a0
      else Fin result
    else NaN.
  (** roll_mean. *)
  Definition kahan_mean (w : nat) (l : list (ext A)) : list (ext A) :=
    roll (if_finite add_mean) (if_finite remove_mean) (calc_mean w) ({| k_nobs := 0; k_sum := a0; k_add := a0; k_remove := a0 |}, 0) w l.
End Kahan.

(** transformers/technical/moving_average.py:52-79, MovingAverageCrossOver.transform, with rolling means in the given arithmetic. *)
Definition crossover_running (numbers : Arith R) (fast slow : nat) (fill_between_crossovers : bool) (name : string) (X : frame) : result (list (ext R)) :=
  do c <- column name X ;;
  let fast_ma := @kahan_mean R numbers fast c in
  let slow_ma := @kahan_mean R numbers slow c in
  let idx := f_index X in
  let side := map (fun _ => if fill_between_crossovers then NaN else Fin 0%R) idx in
  let side := loc_set idx (down_cross_indices idx fast_ma slow_ma) (Fin (-1)%R) side in
  let side := loc_set idx (up_cross_indices idx fast_ma slow_ma) (Fin 1%R) side in
  Ok (fillna0 (ffill side)).
