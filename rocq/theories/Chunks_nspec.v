(** The relevance a pair of ids has received. *)
From Coq Require Import ZArith.
From Verif Require Import Prelude DataPrep_model.
Set Warnings "-notation-overridden".
From mathcomp Require Import all_ssreflect all_algebra.
From Verif Require Import Num_spec.
Set Implicit Arguments.
Unset Strict Implicit.
Unset Printing Implicit Defensive.
Local Open Scope ring_scope.

(** The total relevance of the rows of user [u] with item [i]. *)
Definition relevance (R : ringType) (of_rel : Z -> R) (rows : list irow) (u i : Z) : R :=
  \sum_(x <- rows | Z.eqb (r_user x) u && Z.eqb (r_item x) i) of_rel (r_rel x).
