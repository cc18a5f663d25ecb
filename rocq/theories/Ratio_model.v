(** Model of the sizes computed from ratios in double precision: prepare_data.py:40, 47,
    source/experiments/prepare_data.py:37 with [init_ratio] of configs/*/config.py:14,
    source/matrix_operations.py:133-134.  Doubles are positive and normal: [m * 2 ^ e]. *)
From Coq Require Import ZArith Bool.
Open Scope Z_scope.

(** [p / 2 ^ b] to the nearest integer, ties to even. *)
Definition nearest_even (p b : Z) : Z :=
  let q := p / 2 ^ b in
  let r := p mod 2 ^ b in
  if (2 * r <? 2 ^ b) || ((2 * r =? 2 ^ b) && Z.even q) then q else q + 1.

(** The double nearest to [p * 2 ^ e] (IEEE 754 binary64: 53 bits, round to nearest even). *)
Definition to_double (p e : Z) : Z * Z :=
  let b := Z.log2 p - 52 in
  if b <=? 0 then (p, e) else (nearest_even p b, e + b).

(** [int(x)] of a double that is not negative. *)
Definition to_int (x : Z * Z) : Z :=
  let '(m, e) := x in if 0 <=? e then m * 2 ^ e else m / 2 ^ (- e).

(** [int(n * ratio)] for an integer [n] of at most 53 bits (prepare_data.py:47,
    source/experiments/prepare_data.py:37, source/matrix_operations.py:133-134). *)
Definition int_times (n : Z) (ratio : Z * Z) : Z :=
  let '(m, e) := ratio in to_int (to_double (n * m) e).

(** The literals 0.2 (prepare_data.py:40), 0.4, 0.7 and 0.8 (configs/ml_20m, amz_b, amz_g,
    steam: config.py:14) as doubles. *)
Definition lit_02 : Z * Z := (3602879701896397, -54).
Definition lit_04 : Z * Z := (3602879701896397, -53).
Definition lit_07 : Z * Z := (3152519739159347, -52).
Definition lit_08 : Z * Z := (3602879701896397, -52).
