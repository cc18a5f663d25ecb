(** C108: a numerical run. *)
From Coq Require Import ZArith QArith.
From Verif Require Import Prelude DataPrep_model Psi_model Tensor_model Matrix_model LinAlg_model Num_model Dup_spec.
Set Warnings "-notation-overridden".
From mathcomp Require Import all_ssreflect all_algebra.
From Verif Require Import LinAlg_spec LinAlg_tables Num_wit Columns_wit Dup_nwit.
Local Open Scope ring_scope.

(** Rational arithmetic adds up; SVD and PSI on tables with repetitions and on their sums: same
    factors, histories with the same pairs. *)
Example repeated_run : adds_up (0 : rat) +%R /\
  d_life = Ok (c_col 1, SMat (c_one 5%:Q), c_row 1, [:: (Z0, Z0); (Zpos 1, Zpos 1); (Z0, Z0); (Z0, Z0); (Z0, Z0)]) /\
  d_life' = Ok (c_col 1, SMat (c_one 5%:Q), c_row 1, [:: (Z0, Z0); (Zpos 1, Zpos 1); (Z0, Z0)]).
Proof. split; [exact: rat_adds_up|exact: d_life_run]. Qed.
