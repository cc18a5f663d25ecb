(** Concrete cases for the Blind theorems. *)
From Coq Require Import ZArith.
From Coq Require List.
From Verif Require Import Prelude DataPrep_model Psi_model Num_model Full_spec.
Set Warnings "-notation-overridden".
From mathcomp Require Import all_ssreflect all_algebra.
From Verif Require Import Num_spec Num_wit.
Set Implicit Arguments.
Unset Strict Implicit.
Unset Printing Implicit Defensive.
Import GRing.Theory Num.Theory.
Local Open Scope ring_scope.

Lemma e3_loss0 : (\rank (fmx (users_of (nm_book e3_x0)) (items_of (nm_book e3_x0)) (total o_rel (nm_book e3_x0) e3_data)) <= 2)%N.
Proof.
  apply: eq_leq. apply: (tot_rank (X := two_cols 3) (Y := Tensor_model.mkMat 2 4 [:: 9%:Q; 0; 0; 0; 0; 4%:Q; 0; 0])
    (L := Tensor_model.mkMat 2 3 [:: LinAlg_tables.frac 1 9; 0; 0; 0; LinAlg_tables.frac 1 4; 0]) (K := two_cols 4)).
  by vm_compute.
Qed.
Lemma e3_stream : lossless_stream o_rel plain 2 (w_update plain) e3_x0 [:: e3_c1].
Proof. exists e3_x1. split; [exact e3_r1|exact e3_loss1|exact I]. Qed.
(** User 20 has item 40 and three others to choose from. *)
Definition e3_rows : list irow := List.app e3_data e3_c1.
Lemma e3_unseen : unseen e3_rows (Z.of_nat 20) = [:: Z.of_nat 50; Z.of_nat 60; Z.of_nat 30].
Proof. by vm_compute. Qed.
