(** Rounding a rational number to a double, by integer arithmetic: what every product of two floats in the code does. Used for
    `int(max_samples * X.shape[0])` (mizarlabs/model/sequentially_bootstrapped_bagging_classifier.py:366-367, 376-384) and for `int(a / b)`
    (mizarlabs/model/model_selection.py:117-118, 368). *)
From Coq Require Import ZArith QArith.

(** Round num/den (den > 0) to the nearest integer, ties to even: the significand rounding of IEEE division. *)
Definition round_half_even (num den : Z) : Z :=
  let q := (num / den)%Z in
  let r := (num mod den)%Z in
  match Z.compare (2 * r) den with
  | Lt => q
  | Gt => (q + 1)%Z
  | Eq => if Z.even q then q else (q + 1)%Z
  end.

(** The exponent of the last of the 53 bits of a/b (a, b > 0), not below the smallest exponent of a double. *)
Definition last_bit (a b : Z) : Z :=
  let e0 := (Z.log2 a - Z.log2 b - 52)%Z in
  Z.max (-1074) (if (a * 2 ^ Z.max 0 (- e0) <? 2 ^ 52 * (b * 2 ^ Z.max 0 e0))%Z then e0 - 1 else e0).
(** The double nearest to a/b (a, b > 0). *)
Definition rounded_pos (a b : Z) : Q :=
  let e := last_bit a b in
  let m := round_half_even (a * 2 ^ Z.max 0 (- e)) (b * 2 ^ Z.max 0 e) in
  if (0 <=? e)%Z then inject_Z (m * 2 ^ e) else (m # Z.to_pos (2 ^ (- e)))%Q.
(** The double nearest to [q]. Simplification: no overflow (a result beyond the largest double is kept). *)
Definition rounded (q : Q) : Q :=
  match Qnum q with
  | Z0 => 0%Q
  | Zpos a => rounded_pos (Zpos a) (Zpos (Qden q))
  | Zneg a => (- rounded_pos (Zpos a) (Zpos (Qden q)))%Q
  end.
