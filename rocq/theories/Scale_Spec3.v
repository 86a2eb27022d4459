(** Series of prices in another unit, or mirrored. *)
From Coq Require Import Reals String.
From Verif Require Import Series Break_Spec.

(** Every value multiplied by [c]; a negative [c] also exchanges rises and falls. *)
Definition multiplied (c : R) (s : list (Z * R)) : list (Z * R) := map (fun r => (fst r, (c * snd r)%R)) s.

(** The models of the SADF test that take the logarithm of the prices. *)
Definition needs_log (model : string) : Prop := is_martingale model = true /\ model <> "sm_poly_1"%string.

(** The side of the test on the series multiplied by [a]. *)
Definition turned (a : R) (d : side) : side := if Rlt_dec a 0 then match d with Positive => Negative | Negative => Positive | TwoSided => TwoSided end else d.
