(** C108: a numerical run with repeated interactions. *)
From Coq Require Import ZArith QArith Lia.
From Verif Require Import Prelude DataPrep_model Psi_model Tensor_model Matrix_model Attention_model LinAlg_model Num_model Full_model Dup_spec Dup_main.
Set Warnings "-notation-overridden".
From mathcomp Require Import all_ssreflect all_algebra.
From Verif Require Import LinAlg_spec LinAlg_tables LinAlg_wit Upd_spec Upd_wit Num_spec Num_wit Full_spec Full_wit Columns_wit.
Set Implicit Arguments.
Unset Strict Implicit.
Unset Printing Implicit Defensive.
Import GRing.Theory Num.Theory.
Local Open Scope ring_scope.

Lemma rat_adds_up : adds_up (0 : rat) +%R.
Proof. split; [exact: addrA|split; [exact: addrC|exact: add0r]]. Qed.

(** The table of Columns_wit.c_start with a relevance of 2 given in two rows, and an update of
    relevance 3 given in two rows. *)
Definition d_first : list irow := [:: mkRow 1 10 1 1; mkRow 2 20 1 1; mkRow 1 10 5 1].
Definition d_second : list irow := [:: mkRow 1 10 2 1; mkRow 1 10 4 2].
Definition d_life :=
  do x <- num_train (0 : rat) +%R o_rel c_svds (Zpos 1) d_first; do y <- c_update x d_second; Ok (nm_f y, ps_history (nm_book y)).
Definition d_life' :=
  do x <- num_train (0 : rat) +%R o_rel c_svds (Zpos 1) (summed d_first); do y <- c_update x (summed d_second); Ok (nm_f y, ps_history (nm_book y)).
Lemma d_life_run :
  d_life = Ok (c_col 1, SMat (c_one 5%:Q), c_row 1, [:: (Z0, Z0); (Zpos 1, Zpos 1); (Z0, Z0); (Z0, Z0); (Z0, Z0)]) /\
  d_life' = Ok (c_col 1, SMat (c_one 5%:Q), c_row 1, [:: (Z0, Z0); (Zpos 1, Zpos 1); (Z0, Z0)]).
Proof. split; vm_compute; reflexivity. Qed.
