(** Specification vocabulary for the splitting ratios of the experiments. *)
From Coq Require Import ZArith QArith Lia.
From Verif Require Import Matrix_spec.
Open Scope Q_scope.

(** A ratio between 0 and 1; a non-negative ratio. *)
Definition fraction (q : Q) : Prop := 0 <= q /\ q <= 1.
Definition nonneg (q : Q) : Prop := 0 <= q.

(** [z] is the integer part of [k * q]. *)
Definition part_of (k : nat) (q : Q) (z : nat) : Prop := floor_of (inject_Z (Z.of_nat k) * q) z.

(** [k * q] is the integer [z]. *)
Definition exact_part (k : nat) (q : Q) (z : nat) : Prop := inject_Z (Z.of_nat k) * q == inject_Z (Z.of_nat z).

(** One new block out of [1 / q] and the first block: how many blocks a ratio announces. *)
Definition announced (q : Q) : Q := 1 / q + 1.
Definition at_least_announced (rank : nat) (q : Q) : Prop := announced q <= inject_Z (Z.of_nat rank).
