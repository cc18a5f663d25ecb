(** Specification vocabulary for matrix elements, errors and block splitting. *)
From Coq Require Import ZArith QArith List Bool Lia.
From Verif Require Import Prelude Tensor_model Tensor_spec.
Import ListNotations.
Open Scope nat_scope.

(** [d] is the square matrix with diagonal [s]. *)
Definition is_diag {A} (zero : A) (d : mat A) (s : list A) : Prop :=
  mr d = length s /\ mc d = length s
  /\ forall r t, r < length s -> t < length s -> mget zero d r t = if r =? t then nth r s zero else zero.

(** [z] is the integer part of a non-negative rational. *)
Definition floor_of (q : Q) (z : nat) : Prop :=
  (inject_Z (Z.of_nat z) <= q /\ q < inject_Z (Z.of_nat z + 1))%Q.

(** Start of block [k] when the first block has size [i0] and the others size [w]. *)
Definition block_start (i0 w k : nat) : nat := match k with O => 0 | S k' => i0 + k' * w end.
Definition block_size (i0 w k : nat) : nat := match k with O => i0 | S _ => w end.
