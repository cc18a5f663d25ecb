(** C102, C103: runs of TDRecRe with other names and times. *)
From Coq Require Import ZArith QArith Lia.
From Verif Require Import Prelude DataPrep_model History_model Tensor_model Matrix_model LinAlg_model Nti_model Dynamic_model Rex_model Rename_spec Columns_spec.
Set Warnings "-notation-overridden".
From mathcomp Require Import all_ssreflect all_algebra.
From Verif Require Import LinAlg_spec Num_spec Full_wit Seqx_wit Tdx_wit Rex_wit Rename_wit Columns_wit Reinit_wit.
Set Implicit Arguments.
Unset Strict Implicit.
Unset Printing Implicit Defensive.

(** The series of Rex_wit.e_result, with names and with times that meet the hypotheses. *)
Example renamed_tdrecre : keeps_order n_times3 /\ one_to_one Z.opp /\
  exists dyn, e_run 2 2 [:: Zpos 19] (n_thrice e_table) (List.map n_thrice e_stream) = Ok dyn /\
  d_hr dyn = [:: q0; q1] /\ d_mrr dyn = [:: q0; Qmake (Zpos 1) 2] /\ d_wji dyn = [:: Qmake (Zpos 6) 6].
Proof. split; [exact: times3_inc|split; [exact: opp_one|exact: re_names_run]]. Qed.
Example retimed_tdrecre : same_order c_unit /\
  exists dyn, e_run 2 2 [:: Zpos 6] (c_times c_unit e_table) (List.map (c_times c_unit) e_stream) = Ok dyn /\
  d_hr dyn = [:: q0; q1] /\ d_mrr dyn = [:: q0; Qmake (Zpos 1) 2] /\ d_wji dyn = [:: Qmake (Zpos 6) 6].
Proof. split; [exact: c_unit_ok|exact: re_times_run]. Qed.
