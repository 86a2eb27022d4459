(** Vocabulary for strategies that are sized from probabilities. *)
From Coq Require Import Reals String.
From Verif Require Import Prelude Num Weights_Spec Bet_Model Bet_Spec Pipe_Model Pipe_Spec Strat_Model.
Open Scope nat_scope.

(** The bet sizer of the pipeline. *)
Definition sized_by (cdf : R -> R) (c : bet_cfg) (p : pipeline R) : Prop :=
  bet_sizer p = Some (sizer_of cdf c (match metalabeling_model p with Some _ => true | None => false end)).
(** [x] is the greatest entry, and [k] is where it is for the first time. *)
Definition first_best (k : nat) (x : R) (l : list R) : Prop :=
  nth_error l k = Some x /\ forall j y, nth_error l j = Some y -> (y <= x)%R /\ (j < k -> (y < x)%R).
(** A model whose probabilities are in [0, 1], with classes from -1, 0 and 1. *)
Definition probabilities_ok (m : model R) : Prop :=
  (forall rs vs, predict_proba m rs = Ok vs -> Forall (fun v => exists qs, v = map Fin qs /\ qs <> [] /\ List.length qs = List.length (classes m) /\ Forall (fun q => (0 <= q <= 1)%R) qs) vs) /\
  Forall (fun c => exists d, c = Fin d /\ sign_value d) (classes m).
(** A model that predicts -1, 0 or 1. *)
Definition sides_ok (m : model R) : Prop := forall rs vs, predict m rs = Ok vs -> Forall (fun v => exists d, v = Fin d /\ sign_value d) vs.
(** Probabilities that sum to one. *)
Definition sum_to_one (m : model R) : Prop := forall rs vs, predict_proba m rs = Ok vs -> Forall (fun v => forall qs, v = map Fin qs -> rsum qs = 1%R) vs.
