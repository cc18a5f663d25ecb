(** Property theorems for newcomers under integrator processing
    (source/models/tirec_accelerated.py): C78. *)
From Coq Require Import ZArith.
From Verif Require Import Prelude DataPrep_model DataPrep_spec History_model History_spec Psi_model Tirec_model Tirec_spec
  Tensor_model Tensor_spec Matrix_model Attention_model Attention_spec LinAlg_model Tucker_model Hooi_model Upd_model Nti_model.
Set Warnings "-notation-overridden".
From mathcomp Require Import all_ssreflect all_algebra.
From Verif Require Import LinAlg_spec LinAlg_tables Tucker_spec Hooi_spec Upd_spec Exact_spec Nti_spec Cold_spec.
From Verif Require Cold_main Cold_wit Nti_wit.
Set Implicit Arguments.
Unset Strict Implicit.
Unset Printing Implicit Defensive.
Import GRing.Theory.
Local Open Scope ring_scope.

(** C78.  In TIRecA with integrator processing, whatever the attention, an update gives a new
    user without known items a zero slice of the tensor, and the items that only such users
    have too; such items have score 0 for everybody, and a user of such items only has no
    score but 0. *)
Theorem newcomers_get_nothing :
  forall (R : realFieldType) (of_val : Z -> R), of_val Z0 = 0 -> (forall b z, of_val (Z.add b z) = of_val b + of_val z) ->
  forall (exceeds_eps is_one : R -> bool), (forall b, is_one b = true -> b = 1) ->
  forall cfg L (a ainv : mat R) att r0 r1 r2, att_shape L att -> shape L L a -> shape L L ainv ->
  nc_variant cfg = VTIRecAInt -> nc_random cfg = false ->
  forall rt : mode -> routines R, (forall md, rt_ok (rt md)) ->
  forall x st data s x' st', ti_wf L st -> follows x st -> model_ok r0 r1 r2 L x ->
  nti_update 0 1 +%R *%R (fun y z => y - z) of_val exceeds_eps is_one cfg L a ainv att rt x data s = Ok x' ->
  ti_update VTIRecAInt L st data s = Ok st' ->
  processed max_points (length (ti_delta st st')) = length (ti_delta st st') ->
  sees_users of_val r0 L att x x' ->
  (forall i j k, cold_user x x' i -> value L x' (i, j, k) = 0) /\
  (sees_items of_val r0 r1 L att x x' ->
   [/\ forall i j k, cold_item x x' j -> value L x' (i, j, k) = 0,
       forall u q j, nti_scores 0 +%R *%R x' u = Ok q -> cold_item x x' j -> List.nth j q 0 = 0
     & forall u q d, nti_scores 0 +%R *%R x' u = Ok q -> dget u (nt_seq x') = Some d ->
         (forall j, List.In j (latest_first d) -> cold_item x x' (Z.to_nat j)) -> List.Forall (fun z => z = 0) q]).
Proof. exact: Cold_main.newcomers_main. Qed.
Print Assumptions newcomers_get_nothing.

(** C78.  The claim that everybody with a history has a score that is not 0 is false: with a
    genuine attention matrix a new user of two new items gets only zeros, while the known user
    does not. *)
Theorem newcomer_scores_refuted :
  exists (att ainv : mat rat) (rt : mode -> routines rat) x st data x' st',
  [/\ [/\ att_shape 2 (Some att), shape 2 2 ainv, mx 2 2 att *m mx 2 2 ainv = 1%:M & att = mkMat 2 2 [:: 1; 0; frac 1 2; 1]],
      (forall md, rt_ok (rt md)),
      [/\ ti_wf 2 st, follows x st & model_ok 1 1 1 2 x],
      nti_update 0 1 +%R *%R (fun y z => y - z) Nti_wit.f_of Nti_wit.f_eps Nti_wit.f_one (Nti_wit.d_cfg VTIRecAInt) 2 att ainv (Some att)
        rt x data true = Ok x' /\ ti_update VTIRecAInt 2 st data true = Ok st'
    & [/\ history_value Nti_wit.f_of (nt_seq x') (1, 2, 0)%N = 1, history_value Nti_wit.f_of (nt_seq x') (1, 3, 1)%N = 1,
          nti_scores 0 +%R *%R x' (Z.of_nat 1) = Ok [:: 0; 0; 0; 0]
        & nti_scores 0 +%R *%R x' Z0 = Ok [:: 0; frac 12 25; 0; 0]]].
Proof. exact: Cold_wit.c_refuted. Qed.
Print Assumptions newcomer_scores_refuted.

(** The same run meets every hypothesis of the theorem; user 1 and items 2 and 3 are
    newcomers, user 0 and item 1 are not. *)
Example newcomers_case :
  [/\ sees_users Nti_wit.f_of 1 2 (Some Cold_wit.c_att) Cold_wit.c_x0 Cold_wit.c_x1,
      sees_items Nti_wit.f_of 1 1 2 (Some Cold_wit.c_att) Cold_wit.c_x0 Cold_wit.c_x1,
      cold_user Cold_wit.c_x0 Cold_wit.c_x1 1 /\ cold_item Cold_wit.c_x0 Cold_wit.c_x1 2 /\ cold_item Cold_wit.c_x0 Cold_wit.c_x1 3,
      ~ cold_user Cold_wit.c_x0 Cold_wit.c_x1 0 /\ ~ cold_item Cold_wit.c_x0 Cold_wit.c_x1 1
    & processed max_points (length (ti_delta Nti_wit.s_st Cold_wit.c_st1)) = length (ti_delta Nti_wit.s_st Cold_wit.c_st1)].
Proof.
  split; [exact: Cold_wit.c_sees_users|exact: Cold_wit.c_sees_items| |exact: Cold_wit.c_not_cold|exact: Cold_wit.c_small].
  split; [exact: Cold_wit.c_cold_user|split; exact: Cold_wit.c_cold_item].
Qed.
