(** Vocabulary for stating what a stricter setting does. *)
From Coq Require Import ZArith List Reals.
From Verif Require Import Num Feat_Model.
Import ListNotations.

(** The k-th entry of [b] comes no earlier than the k-th of [a], which then exists: [b] has at most as many entries as [a]. *)
Definition no_earlier (a b : list Z) : Prop :=
  length b <= length a /\ forall k t', nth_error b k = Some t' -> exists t, nth_error a k = Some t /\ (t <= t')%Z.

(** A barrier at the factor [f'] is at least as far away as one at [f]; no factor above zero means no barrier. *)
Definition wider (f f' : R) : Prop := (f' <= 0 \/ 0 < f <= f')%R.

(** Every signal of [b] is a signal of [a], with the same value: [b] is silent or agrees. *)
Definition fewer_signals (a b : list (ext R)) : Prop :=
  length b = length a /\ forall i x, nth_error b i = Some x -> x = Fin 0%R \/ nth_error a i = Some x.

(** The bands of [b] lie within those of [a]; everything else is equal. *)
Definition narrower (a b : bar_rsi_cfg) : Prop :=
  (rsi_lower a <= rsi_lower b)%R /\ (rsi_upper b <= rsi_upper a)%R /\ (arr_lower a <= arr_lower b)%R /\ (arr_upper b <= arr_upper a)%R /\
  arr_fast b = arr_fast a /\ arr_slow b = arr_slow a /\ max_diff b = max_diff a.
