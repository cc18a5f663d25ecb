(** From a raw table: training, then a stream of updates. *)
From Coq Require Import ZArith.
From Verif Require Import Prelude Prelude_proofs DataPrep_model DataPrep_spec History_model History_spec Psi_model Tirec_model Tirec_spec
  Tensor_model Tensor_spec Matrix_model Attention_model LinAlg_model Tucker_model Hooi_model Upd_model Nti_model Nti_book Nti_train.
From Verif Require Tirec_assembly Tirec_stream.
Set Warnings "-notation-overridden".
From mathcomp Require Import all_ssreflect all_algebra.
From Verif Require Import LinAlg_spec Tucker_spec Hooi_spec Upd_spec Exact_spec Nti_spec Nti_sim Nti_track.
Set Implicit Arguments.
Unset Strict Implicit.
Unset Printing Implicit Defensive.
Import GRing.Theory.
Local Open Scope ring_scope.

Lemma trained_stream (R : comRingType) (of_val : Z -> R) (exceeds_eps is_one : R -> bool) (IS1 : forall y, is_one y = true -> y = 1)
    (cfg : nti_cfg) (L : nat) (a ainv : mat R) (att : option (mat R)) (r0 r1 r2 : nat)
    (qr : mat R -> res (mat R * mat R)) rand (rsvd : nat -> mat R -> nat -> res (mat R * list R * mat R))
    (N : Type) (norm : ten R -> N) norm0 grew n_iter force rt s table data chunks :
  att_shape L att -> shape L L a -> shape L L ainv ->
  qr_ok qr -> (forall m, randn_ok (rand m)) -> inner_ok rsvd -> (forall t md, rt_ok (rt t md)) ->
  (0 < r0)%N -> (0 < r1)%N -> (0 < r2)%N -> (0 < n_iter)%N ->
  get_df_with_cropped_pos_column table L s = Ok data ->
  let td := tdrec_train L (Z.of_nat r0, Z.of_nat r1, Z.of_nat r2) data nil in
  match (do x <- nti_train 0 +%R *%R of_val qr rand rsvd norm norm0 grew L (r0, r1, r2) a ainv n_iter force data nil;
         nti_stream 0 1 +%R *%R (fun y z => y - z) of_val exceeds_eps is_one cfg L a ainv att rt s x chunks) with
  | Ok x => exists st0 st, [/\ td = Ok st0, ti_stream (nc_variant cfg) L s st0 chunks = Ok st, follows x st & model_ok r0 r1 r2 L x]
  | Err e => (exists e', td = Err e') \/ (exists st0 e', td = Ok st0 /\ ti_stream (nc_variant cfg) L s st0 chunks = Err e')
             \/ (exists y, qr y = Err e) \/ (exists t y r, rsvd t y r = Err e) \/ exists t, raises (rt t) e
  end.
Proof.
  move=> HA SA SI QR RAND INNER RTS P0 P1 P2 NI EC td.
  have POS := cropped_positions _ _ _ _ EC.
  have := train_sim of_val SA SI norm norm0 grew force nil QR RAND INNER P0 P1 P2 NI POS.
  rewrite -/td. case: nti_train => [x|e]; cbn [bind]; last first.
    case=> [H|[H|H]]; [by left; exists e|by right; right; left|by right; right; right; left].
  case=> st0 ES [F MO _].
  have [W _] := Tirec_stream.tirec_stream_main (nc_variant cfg) L (Z.of_nat r0, Z.of_nat r1, Z.of_nat r2) s table data nil st0 st0 EC ES erefl.
  have := stream_sim of_val exceeds_eps IS1 cfg HA SA SI RTS s chunks W F MO.
  case: nti_stream => [x'|e].
  - case=> st E [F' MO']. by exists st0, st.
  - case=> [[e' H]|H]; [by right; left; exists st0, e'|by right; right; right; right].
Qed.
