(** Model of LogUniformGen and log_uniform (mizarlabs/model/model_selection.py:337-345). *)
From Coq Require Import Reals.
Open Scope R_scope.

(** LogUniformGen._cdf, line 339. *)
Definition raw_cdf (a b x : R) : R := ln (x / a) / ln (b / a).

(** The public `cdf` that scipy's rv_continuous builds from _cdf for support [a, b]: 1 at and above b, 0 at and
    below a, _cdf strictly in between. Simplification: loc = 0, scale = 1, real argument. *)
Definition cdf (a b x : R) : R :=
  if Rle_dec b x then 1 else if Rle_dec x a then 0 else raw_cdf a b x.

(** log_uniform, lines 342-345: the upper end of the support defaults to exp(1). *)
Definition log_uniform (a : R) (b : option R) : R * R := (a, match b with Some b => b | None => exp 1 end).
