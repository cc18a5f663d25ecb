(** Witness theorems about the sequential models with their factors, in the order of arguments
    of the property theorems. *)
From Coq Require Import ZArith.
From Verif Require Import Prelude DataPrep_model DataPrep_spec History_model History_spec Psi_model Tirec_model Tirec_spec
  Tensor_model Tensor_spec Matrix_model Attention_model LinAlg_model Tucker_model Hooi_model Upd_model Nti_model.
Set Warnings "-notation-overridden".
From mathcomp Require Import all_ssreflect all_algebra.
From Verif Require Import LinAlg_spec LinAlg_tables LinAlg_wit Tucker_spec Hooi_spec Hooi_wit Upd_spec Exact_spec Nti_spec Nti_main Nti_track Nti_wit.
Set Implicit Arguments.
Unset Strict Implicit.
Unset Printing Implicit Defensive.
Import GRing.Theory.
Local Open Scope ring_scope.

Lemma doubles :
  exists (cfg : nti_cfg) (rt : mode -> routines rat) x st data x' st' l,
  [/\ nc_variant cfg = VTIRecA, (forall md, rt_ok (rt md)) /\ (forall md, rt_lossless (rt md)),
      [/\ ti_wf 1 st, follows x st & model_ok 1 1 1 1 x],
      [/\ nti_update 0 1 +%R *%R (fun y z => y - z) f_of f_eps f_one cfg 1 one11 one11 None rt x data true = Ok x',
          ti_update VTIRecA 1 st data true = Ok st', ti_log st' = (ti_log st ++ l)%list, rows_aligned st'
        & lossless_update f_of cfg 1 1 1 1 x x' l]
    & exists c, [/\ value 1 x c = 0, history_value f_of (nt_seq x) c = 0, history_value f_of (nt_seq x') c = 1 & value 1 x' c = 2%:Q]].
Proof.
  have N : VTIRecA <> VTIRecAInt by [].
  have [_ V _ [H _] H0] := d_values. have [E1 E2] := d_st1_updated VTIRecA. have HH := H _ N. have [Z0 Z1] := H0 0.
  exists (d_cfg VTIRecA), d_rt, (d_model 0), d_st0, d_chunk, (d_x1 VTIRecA 0), (d_st1 VTIRecA), (d_log VTIRecA).
  split; [reflexivity| | | |exists (1, 1, 0)%N; split; [exact: Z0|exact: Z1|exact: HH|exact: V]].
  - split=> md; [exact: (proj1 (d_rt_ok md))|exact: (proj2 (d_rt_ok md))].
  - split; [exact: (proj1 d_wf)|exact: d_follows|exact: d_model_ok].
  - split; [exact: (d_updated N)|exact: E1|exact: d_log_is|exact: E2|exact: (d_lossless N)].
Qed.

Lemma holds1 c : value 1 (d_model 1) c = history_value f_of (nt_seq (d_model 1)) c.
Proof.
  have F := d_follows 1. have [W _] := d_wf. have [N0 N1] : n_rows (d_model 1) 0 = 1%N /\ n_rows (d_model 1) 1 = 1%N by split; vm_compute; reflexivity.
  have [C1 C2] := d_holds.
  move: (d_model 1) d_st0 F W N0 N1 C1 C2 => x st F W N0 N1 C1 C2. move: c. apply: (history_inside f_of_0 W F) => -[[i j] k].
  rewrite N0 N1 /inside /c0 /c1 /c2 /= !ltnS !leqn0 => /and3P [/eqP -> /eqP -> /eqP ->]. by rewrite C1 C2.
Qed.
Lemma loses :
  exists (cfg : nti_cfg) (rt : mode -> routines rat) x st data x' st',
  [/\ nc_variant cfg = VTIRecAInt, (forall md, rt_ok (rt md)) /\ (forall md, rt_lossless (rt md)),
      [/\ ti_wf 1 st, follows x st, model_ok 1 1 1 1 x & forall c, value 1 x c = history_value f_of (nt_seq x) c],
      [/\ nti_update 0 1 +%R *%R (fun y z => y - z) f_of f_eps f_one cfg 1 one11 one11 None rt x data true = Ok x',
          ti_update VTIRecAInt 1 st data true = Ok st' & rows_aligned st']
    & exists c, history_value f_of (nt_seq x') c = 1 /\ value 1 x' c = 0].
Proof.
  have [_ _ V [_ H] _] := d_values. have [E1 E2] := d_st1_updated VTIRecAInt.
  exists (d_cfg VTIRecAInt), d_rt, (d_model 1), d_st0, d_chunk, (d_x1 VTIRecAInt 1), (d_st1 VTIRecAInt).
  split; [reflexivity| | | |exists (1, 1, 0)%N; split; [exact: H|exact: V]].
  - split=> md; [exact: (proj1 (d_rt_ok md))|exact: (proj2 (d_rt_ok md))].
  - split; [exact: (proj1 d_wf)|exact: d_follows|exact: d_model_ok|exact: holds1].
  - split; [exact: d_updated_int|exact: E1|exact: E2].
Qed.
