(** Vocabulary for sizes computed from ratios: IEEE 754 doubles by Flocq's rounding of reals. *)
From Coq Require Import ZArith Reals.
From Flocq Require Import Core.
Open Scope Z_scope.

(** The double nearest to a real number, ties to even (no overflow). *)
Definition double (x : R) : R := round radix2 (FLT_exp (-1074) 53) ZnearestE x.

(** [int(n * ratio)] where [ratio] is the literal for the real number [r]. *)
Definition ieee_int_times (n : Z) (r : R) : Z := Ztrunc (double (double (IZR n) * double r)).

(** The sizes for which 0.7 takes one row less: [n = 10 k] with [7 k] in the upper eighth of a
    range between powers of two. *)
Definition one_short (n : Z) : Prop :=
  exists k m, n = 10 * k /\ 0 <= m /\ 2 ^ m < k /\ 7 * k < 2 ^ (m + 3).
