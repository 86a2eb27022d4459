(** Vocabulary for the dependence of the structural-break statistics on the unit and the origin of the observations. *)
From Coq Require Import Reals String.
From Verif Require Import Series Break_Spec.
Local Open Scope nat_scope.

(** The same observations in another unit ([a]) and from another origin ([b]). *)
Definition rescale (a b : R) (s : list (Z * R)) : list (Z * R) := map (fun p => (fst p, (a * snd p + b)%R)) s.

(** Upwards and downwards exchanged. *)
Definition opposite (d : side) : side := match d with Positive => Negative | Negative => Positive | TwoSided => TwoSided end.

(** The changes of unit and origin that the SADF test of a model ignores: any unit for the standard models, and any origin
    too if they have a constant; any of both for the polynomial model of the price itself; any positive unit for the models
    of the logarithm of the price. *)
Definition ignored (model : string) (const : bool) (a b : R) : Prop :=
  if is_standard model then a <> 0%R /\ (b = 0%R \/ const = true)
  else if String.eqb model "sm_poly_1" then a <> 0%R
  else (0 < a)%R /\ b = 0%R.
