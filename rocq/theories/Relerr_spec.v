(** Vocabulary for the errors of decompositions. *)
From Verif Require Import Prelude Tensor_model Tensor_spec Relerr_model.
Set Warnings "-notation-overridden".
From mathcomp Require Import all_ssreflect all_algebra.
From Verif Require Import LinAlg_spec Tucker_spec Hooi_spec.
Set Implicit Arguments.
Unset Strict Implicit.
Unset Printing Implicit Defensive.
Import GRing.Theory Num.Theory.
Local Open Scope ring_scope.

Section Spec.
Variable R : realFieldType.

(** What is used of the square root. *)
Definition root_ok (sqrt : R -> R) : Prop :=
  sqrt 0 = 0 /\ forall x y : R, 0 <= x -> x < y -> sqrt x < sqrt y.

(** Sum of squares of a list. *)
Definition squares (l : list R) : R := \sum_(x <- l) x ^+ 2.

(** Relative error of [f] as an approximation of the tensor [t], over all cells. *)
Definition full_error (sqrt : R -> R) (eps : R) (n0 n1 n2 : nat) (t f : cell -> R) : R :=
  sqrt (sumsq n0 n1 n2 (fun c => t c - f c)) / sqrt (sumsq n0 n1 n2 t + eps).

(** The core has a number for every triple of columns. *)
Definition core_fits (core : ten R) (u v w : mat R) : Prop :=
  mc u = 0%N \/ mc v = 0%N \/ mc w = 0%N
  \/ (mc u <= c0 (tshape core))%coq_nat /\ (mc v <= c1 (tshape core))%coq_nat /\ (mc w <= c2 (tshape core))%coq_nat.

(** Cell of the matrix of a singular value decomposition. *)
Definition svd_cell (u : mat R) (s : list R) (vt : mat R) (c : nat * nat) : R :=
  \sum_(r < mc u) mget 0 u c.1 r * List.nth r s 0 * mget 0 vt r c.2.
End Spec.

(** The errors of the code over an ordered field. *)
Notation tensor_error sqrt eps :=
  (sqrt_err_relative 0 +%R *%R (fun x y => x - y) (fun x y => x / y) sqrt eps).
Notation matrix_error_1 sqrt eps :=
  (sqrt_err_relative_1 0 +%R *%R (fun x y => x - y) (fun x y => x / y) sqrt eps).
Notation matrix_error_2 sqrt eps :=
  (sqrt_err_relative_2 0 +%R *%R (fun x y => x - y) (fun x y => x / y) sqrt eps).
Notation hilbert := (gen_hilbert_tensor 1 (fun x y => x / y) (fun n => n%:R)).
