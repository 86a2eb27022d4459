(** The time-decay sample weights in the arithmetic that numpy and pandas use (mizarlabs/transformers/sample_weights/__init__.py:100-140,
    mizarlabs/transformers/sampling/average_uniqueness.py:18-38). Simplifications: as in Double_Model.v and Weights_Model.v. *)
From Coq Require Import Reals ZArith List.
From Verif Require Import Series Boot_Model Weights_Model Double_Model Double_Boot_Model.
Import ListNotations.

(** AverageUniqueness.transform, average_uniqueness.py:18-38, as in Boot_Model.v with every rounding. *)
Definition average_uniqueness_transform_double (X : list (Z * option Z)) : result (list (Z * option R)) :=
  if existsb (fun r => match snd r with None => true | Some _ => false end) X then Err AssertionError else
  if has_dup (map fst X) then Err AssertionError else
  do mi <- get_ind_matrix (map (fun r => (Some (fst r), snd r)) X) (map fst X) ;;
  Ok (combine (map fst X) (calc_average_uniqueness_double (fst mi))).

(** SampleWeightsByTimeDecay.transform, sample_weights/__init__.py:127-140, as in Weights_Model.v with every rounding
    (`Series.cumsum` adds from left to right). *)
Definition decay_transform_double (c : R) (X : list (Z * option Z)) : result (list (Z * ext R)) :=
  if Rlt_dec 1 c then Err AssertionError else
  do av <- average_uniqueness_transform_double X ;;
  let s := sort_index av in
  do w <- @decay_weights R Arith_double c (map (fun r => of_opt (snd r)) s) ;;
  Ok (combine (map fst s) w).
