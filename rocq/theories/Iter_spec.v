(** What the number of iterations means. *)
From Coq Require Import ZArith List Bool.
From Verif Require Import Prelude Dynamic_model.
Import ListNotations.
Open Scope Z_scope.

(** Of [n] groups, [processed how_many n k] are run over: the first [how_many], all if
    [how_many] is not positive or too large. *)
Definition processed (how_many : Z) (n k : nat) : Prop :=
  (0 < how_many <= Z.of_nat n -> Z.of_nat k = how_many) /\ (how_many <= 0 \/ Z.of_nat n < how_many -> k = n).

(** The users of the stability test come from the first [k] groups: [how_many] of them at
    most; for a negative number, all but the last [- how_many]. *)
Definition looked_at (how_many : Z) (n k : nat) : Prop :=
  (0 <= how_many -> Z.of_nat k = Z.min how_many (Z.of_nat n)) /\
  (how_many < 0 -> Z.of_nat k = Z.max 0 (Z.of_nat n + how_many)).

(** [x] is [y] cut after [k] groups; the series of the changes and of the stability have one
    value less. *)
Definition cut_after {T V} (k : nat) (x y : dynamics T V) : Prop :=
  calculation_time x = firstn (k + 1) (calculation_time y) /\
  d_hr x = firstn k (d_hr y) /\ d_mrr x = firstn k (d_mrr y) /\
  rnd_users x = firstn (k - 1) (rnd_users y) /\ rnd_items x = firstn (k - 1) (rnd_items y) /\
  nd_users x = firstn k (nd_users y) /\ nd_items x = firstn k (nd_items y).
