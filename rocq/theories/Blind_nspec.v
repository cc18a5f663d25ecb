(** Vocabulary: the total relevance a user gave an item, by their ids. *)
From Coq Require Import ZArith.
From Verif Require Import Prelude DataPrep_model.
Set Warnings "-notation-overridden".
From mathcomp Require Import all_ssreflect all_algebra.
Set Implicit Arguments.
Unset Strict Implicit.
Unset Printing Implicit Defensive.
Local Open Scope ring_scope.

Definition given (R : ringType) (of_rel : Z -> R) (P : list DataPrep_model.row) (u i : Z) : R :=
  \sum_(y <- P | Z.eqb (r_user y) u && Z.eqb (r_item y) i) of_rel (r_rel y).
