(** Property theorems for the sequential models with their factors (source/models/tdrec.py,
    tirec.py, tirec_accelerated.py): C75, C76, C77. *)
From Coq Require Import ZArith.
From Verif Require Import Prelude DataPrep_model DataPrep_spec History_model History_spec Psi_model Tirec_model Tirec_spec
  Tensor_model Tensor_spec Matrix_model Attention_model LinAlg_model Tucker_model Hooi_model Upd_model Nti_model.
Set Warnings "-notation-overridden".
From mathcomp Require Import all_ssreflect all_algebra.
From Verif Require Import LinAlg_spec LinAlg_tables Tucker_spec Hooi_spec Upd_spec Exact_spec Nti_spec.
From Verif Require Nti_sim Nti_main Nti_track Nti_scores Nti_end Nti_refuted Nti_wit Hooi_wit.
Set Implicit Arguments.
Unset Strict Implicit.
Unset Printing Implicit Defensive.
Import GRing.Theory.
Local Open Scope ring_scope.

(** C75.  An update of the model object does the data handling of Tirec_model and keeps a
    well-formed Tucker model with one row of the factors per owner; the position embeddings
    are those of the new position factor.  It raises only if the data handling raises or an
    external routine does. *)
Theorem sequential_update_lockstep :
  forall (R : comRingType) (of_val : Z -> R) (exceeds_eps is_one : R -> bool), (forall y, is_one y = true -> y = 1) ->
  forall cfg L (a ainv : mat R) att r0 r1 r2, att_shape L att -> shape L L a -> shape L L ainv ->
  forall rt : mode -> routines R, (forall md, rt_ok (rt md)) ->
  forall x st data s, ti_wf L st -> follows x st -> model_ok r0 r1 r2 L x ->
  match nti_update 0 1 +%R *%R (fun y z => y - z) of_val exceeds_eps is_one cfg L a ainv att rt x data s with
  | Ok x' => exists2 st', ti_update (nc_variant cfg) L st data s = Ok st' &
      [/\ follows x' st', model_ok r0 r1 r2 L x'
        & position_embeddings 0 +%R *%R a ainv (factor (nt_fs x') 2) = Ok (nt_aw x', nt_last x')]
  | Err e => (exists e', ti_update (nc_variant cfg) L st data s = Err e') \/ (exists md, rt_raises (rt md) e)
  end.
Proof. exact: Nti_sim.update_sim. Qed.
Print Assumptions sequential_update_lockstep.

(** C75.  Training. *)
Theorem sequential_training_lockstep :
  forall (R : comRingType) (of_val : Z -> R) L (a ainv : mat R) r0 r1 r2, shape L L a -> shape L L ainv ->
  forall (qr : mat R -> res (mat R * mat R)) rand (rsvd : nat -> mat R -> nat -> res (mat R * list R * mat R))
    (N : Type) (norm : ten R -> N) norm0 grew n_iter force data seq,
  qr_ok qr -> (forall m, randn_ok (rand m)) -> inner_ok rsvd ->
  (0 < r0)%N -> (0 < r1)%N -> (0 < r2)%N -> (0 < n_iter)%N ->
  (forall p, List.In p data -> Z.le 0 (p_pos p)) ->
  let td := tdrec_train L (Z.of_nat r0, Z.of_nat r1, Z.of_nat r2) data seq in
  match nti_train 0 +%R *%R of_val qr rand rsvd norm norm0 grew L (r0, r1, r2) a ainv n_iter force data seq with
  | Ok x => exists2 st, td = Ok st &
      [/\ follows x st, model_ok r0 r1 r2 L x
        & position_embeddings 0 +%R *%R a ainv (factor (nt_fs x) 2) = Ok (nt_aw x, nt_last x)]
  | Err e => td = Err e \/ (exists x, qr x = Err e) \/ (exists t x r, rsvd t x r = Err e)
  end.
Proof. exact: Nti_sim.train_sim. Qed.
Print Assumptions sequential_training_lockstep.

(** C75.  Training on a raw table followed by any stream of chunks. *)
Theorem sequential_stream_lockstep :
  forall (R : comRingType) (of_val : Z -> R) (exceeds_eps is_one : R -> bool), (forall y, is_one y = true -> y = 1) ->
  forall cfg L (a ainv : mat R) att r0 r1 r2
    (qr : mat R -> res (mat R * mat R)) rand (rsvd : nat -> mat R -> nat -> res (mat R * list R * mat R))
    (N : Type) (norm : ten R -> N) norm0 grew n_iter force rt s table data chunks,
  att_shape L att -> shape L L a -> shape L L ainv ->
  qr_ok qr -> (forall m, randn_ok (rand m)) -> inner_ok rsvd -> (forall t md, rt_ok (rt t md)) ->
  (0 < r0)%N -> (0 < r1)%N -> (0 < r2)%N -> (0 < n_iter)%N ->
  get_df_with_cropped_pos_column table L s = Ok data ->
  let td := tdrec_train L (Z.of_nat r0, Z.of_nat r1, Z.of_nat r2) data nil in
  match (do x <- nti_train 0 +%R *%R of_val qr rand rsvd norm norm0 grew L (r0, r1, r2) a ainv n_iter force data nil;
         nti_stream 0 1 +%R *%R (fun y z => y - z) of_val exceeds_eps is_one cfg L a ainv att rt s x chunks) with
  | Ok x => exists st0 st, [/\ td = Ok st0, ti_stream (nc_variant cfg) L s st0 chunks = Ok st, follows x st & model_ok r0 r1 r2 L x]
  | Err e => (exists e', td = Err e') \/ (exists st0 e', td = Ok st0 /\ ti_stream (nc_variant cfg) L s st0 chunks = Err e')
             \/ (exists y, qr y = Err e) \/ (exists t y r, rsvd t y r = Err e) \/ exists t md, rt_raises (rt t md) e
  end.
Proof. exact: Nti_end.trained_stream. Qed.
Print Assumptions sequential_stream_lockstep.

(** A training run and an update with three new users meeting the hypotheses. *)
Example sequential_lockstep_case :
  Nti_wit.f_train = Ok Nti_wit.f_x0 /\
  nti_update 0 1 +%R *%R (fun y z => y - z) Nti_wit.f_of Nti_wit.f_eps Nti_wit.f_one Nti_wit.f_cfg 4 Nti_wit.f_id Nti_wit.f_id None
    Nti_wit.f_rt Nti_wit.f_x0 Nti_wit.f_chunk true = Ok Nti_wit.f_x1 /\
  [/\ ti_wf 4 Nti_wit.f_st0, follows Nti_wit.f_x0 Nti_wit.f_st0, model_ok 1 4 4 4 Nti_wit.f_x0
    & forall md, rt_ok (Nti_wit.f_rt md)].
Proof.
  split; [exact: Nti_wit.f_trained|split; [exact: Nti_wit.f_updated|]].
  have [F MO _] := Nti_wit.f_start. split; [exact: (proj1 Nti_wit.f_wf)|exact: F|exact: MO|].
  move=> md. exact: (proj1 (Nti_wit.f_rt_ok md)).
Qed.

(** C76.  Without attention a lossless update adds exactly its entries to the tensor. *)
Theorem sequential_update_exact :
  forall (R : realFieldType) (of_val : Z -> R) (exceeds_eps is_one : R -> bool), (forall y, is_one y = true -> y = 1) ->
  forall cfg L (a ainv : mat R) r0 r1 r2 (rt : mode -> routines R), (forall md, rt_ok (rt md)) -> (forall md, rt_lossless (rt md)) ->
  forall x st data s x' st' l, ti_wf L st -> follows x st -> model_ok r0 r1 r2 L x ->
  nti_update 0 1 +%R *%R (fun y z => y - z) of_val exceeds_eps is_one cfg L a ainv None rt x data s = Ok x' ->
  ti_update (nc_variant cfg) L st data s = Ok st' -> ti_log st' = (ti_log st ++ l)%list ->
  lossless_update of_val cfg r0 r1 r2 L x x' l ->
  forall c, value L x' c = value L x c + dense (added of_val (nc_variant cfg) l) c.
Proof. exact: Nti_main.update_exact. Qed.
Print Assumptions sequential_update_exact.

(** C76.  A lossless update changes the tensor as the position tensor of the histories; TIRecA
    adds the entries of new users with new items a second time. *)
Theorem sequential_update_tracks :
  forall (R : realFieldType) (of_val : Z -> R), of_val Z0 = 0 -> (forall b z, of_val (Z.add b z) = of_val b + of_val z) ->
  forall (exceeds_eps is_one : R -> bool), (forall b, is_one b = true -> b = 1) ->
  forall cfg L (a ainv : mat R) r0 r1 r2, shape L L a -> shape L L ainv ->
  forall (rt : mode -> routines R) x st data s x' st' l, (forall md, rt_ok (rt md)) -> (forall md, rt_lossless (rt md)) ->
  ti_wf L st -> follows x st -> model_ok r0 r1 r2 L x ->
  nti_update 0 1 +%R *%R (fun y z => y - z) of_val exceeds_eps is_one cfg L a ainv None rt x data s = Ok x' ->
  ti_update (nc_variant cfg) L st data s = Ok st' -> ti_log st' = (ti_log st ++ l)%list ->
  rows_aligned st' -> lossless_update of_val cfg r0 r1 r2 L x x' l ->
  forall c, value L x' c = value L x c + (history_value of_val (nt_seq x') c - history_value of_val (nt_seq x) c)
    + (if nc_variant cfg is VTIRecA then of_val (History_spec.cell (Z.of_nat (c0 c), Z.of_nat (c1 c), Z.of_nat (c2 c))
                                      (q_new (nusers st) (nitems st) (ti_delta st st'))) else 0).
Proof. exact: Nti_track.update_tracks. Qed.
Print Assumptions sequential_update_tracks.

(** C76.  TIRec, and TIRecA with integrator processing, over a lossless stream. *)
Theorem sequential_stream_tracks :
  forall (R : realFieldType) (of_val : Z -> R), of_val Z0 = 0 -> (forall b z, of_val (Z.add b z) = of_val b + of_val z) ->
  forall (exceeds_eps is_one : R -> bool), (forall b, is_one b = true -> b = 1) ->
  forall cfg L (a ainv : mat R) r0 r1 r2, shape L L a -> shape L L ainv ->
  forall s chunks, nc_variant cfg <> VTIRecA ->
  forall (rt : nat -> mode -> routines R) x st x' st', (forall t md, rt_ok (rt t md)) -> (forall t md, rt_lossless (rt t md)) ->
  ti_wf L st -> rows_aligned st -> follows x st -> model_ok r0 r1 r2 L x ->
  nti_stream 0 1 +%R *%R (fun y z => y - z) of_val exceeds_eps is_one cfg L a ainv None rt s x chunks = Ok x' ->
  ti_stream (nc_variant cfg) L s st chunks = Ok st' ->
  lossless_stream of_val exceeds_eps is_one cfg r0 r1 r2 L a ainv rt s x st chunks ->
  forall c, value L x' c = value L x c + (history_value of_val (nt_seq x') c - history_value of_val (nt_seq x) c).
Proof. exact: Nti_track.stream_tracks. Qed.
Print Assumptions sequential_stream_tracks.

(** C76.  In TIRecA a lossless update can leave a value twice that of the history. *)
Theorem sequential_tracking_refuted :
  exists (cfg : nti_cfg) (rt : mode -> routines rat) x st data x' st' l,
  [/\ nc_variant cfg = VTIRecA, (forall md, rt_ok (rt md)) /\ (forall md, rt_lossless (rt md)),
      [/\ ti_wf 1 st, follows x st & model_ok 1 1 1 1 x],
      [/\ nti_update 0 1 +%R *%R (fun y z => y - z) Nti_wit.f_of Nti_wit.f_eps Nti_wit.f_one cfg 1 Hooi_wit.one11 Hooi_wit.one11 None rt x data true = Ok x',
          ti_update VTIRecA 1 st data true = Ok st', ti_log st' = (ti_log st ++ l)%list, rows_aligned st'
        & lossless_update Nti_wit.f_of cfg 1 1 1 1 x x' l]
    & exists c, [/\ value 1 x c = 0, history_value Nti_wit.f_of (nt_seq x) c = 0,
        history_value Nti_wit.f_of (nt_seq x') c = 1 & value 1 x' c = 2%:Q]].
Proof. exact: Nti_refuted.doubles. Qed.
Print Assumptions sequential_tracking_refuted.

(** C76.  Without the exactness condition an interaction of a new user with a new item can be
    lost, although the SVDs lose nothing. *)
Theorem sequential_lossless_needed_refuted :
  exists (cfg : nti_cfg) (rt : mode -> routines rat) x st data x' st',
  [/\ nc_variant cfg = VTIRecAInt, (forall md, rt_ok (rt md)) /\ (forall md, rt_lossless (rt md)),
      [/\ ti_wf 1 st, follows x st, model_ok 1 1 1 1 x & forall c, value 1 x c = history_value Nti_wit.f_of (nt_seq x) c],
      [/\ nti_update 0 1 +%R *%R (fun y z => y - z) Nti_wit.f_of Nti_wit.f_eps Nti_wit.f_one cfg 1 Hooi_wit.one11 Hooi_wit.one11 None rt x data true = Ok x',
          ti_update VTIRecAInt 1 st data true = Ok st' & rows_aligned st']
    & exists c, history_value Nti_wit.f_of (nt_seq x') c = 1 /\ value 1 x' c = 0].
Proof. exact: Nti_refuted.loses. Qed.
Print Assumptions sequential_lossless_needed_refuted.

(** A lossless stream: three new users of known items after training; the trained tensor is
    that of the histories. *)
Example sequential_tracks_case :
  [/\ nc_variant Nti_wit.f_cfg = VTIRecAInt, rows_aligned Nti_wit.f_st0,
      forall c, value 4 Nti_wit.f_x0 c = history_value Nti_wit.f_of (nt_seq Nti_wit.f_x0) c,
      lossless_stream Nti_wit.f_of Nti_wit.f_eps Nti_wit.f_one Nti_wit.f_cfg 1 4 4 4 Nti_wit.f_id Nti_wit.f_id
        (fun _ => Nti_wit.f_rt) true Nti_wit.f_x0 Nti_wit.f_st0 [:: Nti_wit.f_chunk]
    & (forall md, rt_lossless (Nti_wit.f_rt md)) /\ (forall y z, Nti_wit.f_of (Z.add y z) = Nti_wit.f_of y + Nti_wit.f_of z)].
Proof.
  split; [reflexivity|exact: (proj2 Nti_wit.f_wf)|exact: Nti_wit.f_holds|exact: Nti_wit.f_stream_lossless|].
  split; [move=> md; exact: (proj2 (Nti_wit.f_rt_ok md))|exact: Nti_wit.f_of_add].
Qed.
(** TIRec with one new user and one new item. *)
Example sequential_exact_case :
  [/\ nti_update 0 1 +%R *%R (fun y z => y - z) Nti_wit.f_of Nti_wit.f_eps Nti_wit.f_one (Nti_wit.d_cfg VTIRec) 1 Hooi_wit.one11 Hooi_wit.one11 None
        Nti_wit.d_rt (Nti_wit.d_model 0) Nti_wit.d_chunk true = Ok (Nti_wit.d_x1 VTIRec 0),
      lossless_update Nti_wit.f_of (Nti_wit.d_cfg VTIRec) 1 1 1 1 (Nti_wit.d_model 0) (Nti_wit.d_x1 VTIRec 0) (Nti_wit.d_log VTIRec)
    & value 1 (Nti_wit.d_x1 VTIRec 0) (1, 1, 0)%N = 1].
Proof.
  have N : VTIRec <> VTIRecAInt by [].
  split; [exact: (Nti_wit.d_updated N)|exact: (Nti_wit.d_lossless N)|]. have [H _ _ _ _] := Nti_wit.d_values. exact: H.
Qed.

(** C77.  The scores depend only on the histories, the attention matrices and the represented
    tensor, if its second and third ranks are those of the model. *)
Theorem sequential_scores_by_tensor :
  forall (R : realFieldType) r0 r0' r1 r2 L (a ainv : mat R) (x y : @nti_state R) st,
  shape L L a -> shape L L ainv ->
  ti_wf L st -> follows x st -> nt_seq x = nt_seq y ->
  model_ok r0 r1 r2 L x -> model_ok r0' r1 r2 L y ->
  position_embeddings 0 +%R *%R a ainv (factor (nt_fs x) 2) = Ok (nt_aw x, nt_last x) ->
  position_embeddings 0 +%R *%R a ainv (factor (nt_fs y) 2) = Ok (nt_aw y, nt_last y) ->
  n_rows y 0 = n_rows x 0 -> n_rows y 1 = n_rows x 1 -> (forall c, value L x c = value L y c) ->
  \rank (unf 1 0 (n_rows x 1) (n_rows x 0) L (value L x)) = r1 ->
  \rank (unf 2 0 L (n_rows x 0) (n_rows x 1) (value L x)) = r2 ->
  forall u, nti_scores 0 +%R *%R x u = nti_scores 0 +%R *%R y u.
Proof. exact: Nti_scores.scores_by_tensor. Qed.
Print Assumptions sequential_scores_by_tensor.

(** C77.  After a lossless stream the scores are those of every model with the same histories
    whose tensor is the position tensor of the histories: of a retrained one, say. *)
Theorem sequential_stream_scores :
  forall (R : realFieldType) (of_val : Z -> R), of_val Z0 = 0 -> (forall b z, of_val (Z.add b z) = of_val b + of_val z) ->
  forall (exceeds_eps is_one : R -> bool), (forall b, is_one b = true -> b = 1) ->
  forall cfg L (a ainv : mat R) r0 r1 r2, shape L L a -> shape L L ainv ->
  forall s chunks (rt : nat -> mode -> routines R) x st x' r0' y, nc_variant cfg <> VTIRecA ->
  (forall t md, rt_ok (rt t md)) -> (forall t md, rt_lossless (rt t md)) ->
  ti_wf L st -> rows_aligned st -> follows x st -> model_ok r0 r1 r2 L x ->
  position_embeddings 0 +%R *%R a ainv (factor (nt_fs x) 2) = Ok (nt_aw x, nt_last x) ->
  (forall c, value L x c = history_value of_val (nt_seq x) c) ->
  nti_stream 0 1 +%R *%R (fun y z => y - z) of_val exceeds_eps is_one cfg L a ainv None rt s x chunks = Ok x' ->
  lossless_stream of_val exceeds_eps is_one cfg r0 r1 r2 L a ainv rt s x st chunks ->
  model_ok r0' r1 r2 L y -> nt_seq y = nt_seq x' -> n_rows y 0 = n_rows x' 0 -> n_rows y 1 = n_rows x' 1 ->
  position_embeddings 0 +%R *%R a ainv (factor (nt_fs y) 2) = Ok (nt_aw y, nt_last y) ->
  (forall c, value L y c = history_value of_val (nt_seq y) c) ->
  \rank (unf 1 0 (n_rows y 1) (n_rows y 0) L (value L y)) = r1 ->
  \rank (unf 2 0 L (n_rows y 0) (n_rows y 1) (value L y)) = r2 ->
  forall u, nti_scores 0 +%R *%R x' u = nti_scores 0 +%R *%R y u.
Proof. exact: Nti_scores.stream_scores. Qed.
Print Assumptions sequential_stream_scores.

(** C77.  A position rank equal to the number of positions makes every score 0, whatever the
    attention matrix, if it is inverted correctly. *)
Theorem sequential_full_position_rank :
  forall (R : realFieldType) r0 r1 L (a ainv : mat R) (x : @nti_state R) st,
  shape L L a -> shape L L ainv -> mx L L a *m mx L L ainv = 1%:M ->
  ti_wf L st -> follows x st -> model_ok r0 r1 L L x ->
  position_embeddings 0 +%R *%R a ainv (factor (nt_fs x) 2) = Ok (nt_aw x, nt_last x) ->
  forall u q, nti_scores 0 +%R *%R x u = Ok q -> List.Forall (fun z => z = 0) q.
Proof. exact: Nti_scores.full_positions. Qed.
Print Assumptions sequential_full_position_rank.

(** Two models of the same tensor with other factors and scores that are not 0. *)
Example sequential_scores_case :
  [/\ (forall e, e = 1 \/ e = -1 -> follows (Nti_wit.s_model e) Nti_wit.s_st /\ model_ok 1 1 1 2 (Nti_wit.s_model e)),
      forall c, value 2 (Nti_wit.s_model 1) c = value 2 (Nti_wit.s_model (-1)) c,
      \rank (unf 1 0 2 1 2 (value 2 (Nti_wit.s_model 1))) = 1%N /\ \rank (unf 2 0 2 1 2 (value 2 (Nti_wit.s_model 1))) = 1%N
    & exists q, nti_scores 0 +%R *%R (Nti_wit.s_model 1) Z0 = Ok q /\ q <> [:: 0; 0]].
Proof.
  split; [|exact: Nti_wit.s_values|exact: Nti_wit.s_ranks|exact: Nti_wit.s_scores].
  move=> e He. by case: (Nti_wit.s_facts He).
Qed.
(** The hypotheses of the stream theorem, with two sets of factors. *)
Example sequential_stream_scores_case :
  [/\ follows Nti_wit.f_neg Nti_wit.f_st1 /\ n_rows Nti_wit.f_neg 0 = 4%N /\ n_rows Nti_wit.f_neg 1 = 4%N,
      model_ok 1 4 4 4 Nti_wit.f_neg, forall c, value 4 Nti_wit.f_neg c = history_value Nti_wit.f_of (nt_seq Nti_wit.f_neg) c
    & \rank (unf 1 0 4 4 4 (value 4 Nti_wit.f_neg)) = 4%N /\ \rank (unf 2 0 4 4 4 (value 4 Nti_wit.f_neg)) = 4%N].
Proof.
  split; [exact: Nti_wit.f_neg_follows|exact: Nti_wit.f_neg_ok|exact: Nti_wit.f_neg_holds|exact: Nti_wit.f_neg_ranks].
Qed.
