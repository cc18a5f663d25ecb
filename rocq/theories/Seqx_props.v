(** Property C81: whole experiments with TIRec and TIRecA. *)
From Coq Require Import ZArith QArith.
From Verif Require Import Prelude DataPrep_model DataPrep_spec History_model History_spec Recommend_model Recommend_spec Psi_model Tirec_model Tirec_spec
  Tensor_model Matrix_model Attention_model LinAlg_model Tucker_model Hooi_model Upd_model Nti_model Dynamic_model Dynamic_spec Full_spec Seqx_spec Seqx_model.
Set Warnings "-notation-overridden".
From mathcomp Require Import all_ssreflect all_algebra.
From Verif Require Import LinAlg_spec Tucker_spec Hooi_spec Upd_spec Exact_spec Num_spec Nti_spec.
From Verif Require Seqx_num Hooi_wit Nti_wit Full_wit Seqx_wit.
Set Implicit Arguments.
Unset Strict Implicit.
Unset Printing Implicit Defensive.
Import GRing.Theory Num.Theory.
Local Open Scope ring_scope.

(** C81.  An experiment runs through exactly when the ranks are consistent and fit the cropped
    initial table, some user has [L] rows in it, every chunk has a row to test, every user
    concerned has [k] items left, and every chunk changes some user's last [L] items (and
    TIRec's size condition holds); otherwise it raises.  A run meeting this can only raise
    what a numerical routine raised. *)
Theorem sequential_experiment_outcome :
  forall (R : realFieldType) (of_val : Z -> R) (exceeds_eps is_one : R -> bool), (forall y, is_one y = true -> y = 1) ->
  forall cfg (L r0 r1 r2 : nat) (a ainv : mat R) (att : option (mat R)) (s : bool),
  Peano.le 2 L -> (0 < r0)%N -> (0 < r1)%N -> (0 < r2)%N -> att_shape L att -> shape L L a -> shape L L ainv ->
  forall (qr : mat R -> res (mat R * mat R)) (rand : nat -> nat -> nat -> mat R) (rsvd : nat -> mat R -> nat -> res (mat R * list R * mat R)),
  qr_ok qr -> (forall m, randn_ok (rand m)) -> inner_ok rsvd ->
  forall (N : Type) (tnorm : ten R -> N) (norm0 : N) (grew : N -> N -> bool) (n_iter : nat) (force : bool), (0 < n_iter)%N ->
  forall rt : @nti_state R -> mode -> routines R, (forall x md, rt_ok (rt x md)) ->
  forall argpart : nat -> list R -> nat -> list nat, argpartition_contract (fun x y : R => x <= y) argpart ->
  forall k : nat, Peano.le 1 k ->
  forall keep : list irow -> list irow, crops L s keep ->
  forall (table : list irow) (data : list prow), get_df_with_cropped_pos_column table L s = Ok data -> Z.le 2 (n_items_in (keep table)) ->
  forall (V T : Type) (norm : mat R -> V) (div : V -> V -> V) (minus_one : V) (clock : nat -> T)
         (test_users : list Z) (how_many : Z) (st0 : @nti_state R) (stream : list (list irow)), nt_seq st0 = nil ->
  let model := seq_api 0 1 +%R *%R (fun x y => x - y) of_val exceeds_eps is_one cfg L (r0, r1, r2) a ainv att s
                 qr rand rsvd tnorm norm0 grew n_iter force rt argpart k in
  let n := n_steps how_many (length stream) in
  let possible := seq_trainable r0 r1 r2 L (keep table) /\
                  feasible k (seq_fits (nc_variant cfg) L keep) keep test_users (keep table) stream n in
  match dynamical_experiment 0 (fun x y => x - y) norm div minus_one clock model (grow_3d L) test_users true how_many st0 data stream with
  | Ok _ => possible
  | Err e => possible ->
      (exists x, qr x = Err e) \/ (exists t x r, rsvd t x r = Err e) \/ (exists x md, rt_raises (rt x md) e)
  end.
Proof. exact: Seqx_num.run_outcome. Qed.
Print Assumptions sequential_experiment_outcome.

(** C81.  What it reports: the model of step [t] was trained on the cropped initial table and
    updated with the first [t] chunks; the tested users got the [k] items it scores highest
    among those they have no kept row with. *)
Theorem sequential_experiment_report :
  forall (R : realFieldType) (of_val : Z -> R) (exceeds_eps is_one : R -> bool), (forall y, is_one y = true -> y = 1) ->
  forall cfg (L r0 r1 r2 : nat) (a ainv : mat R) (att : option (mat R)) (s : bool),
  Peano.le 2 L -> (0 < r0)%N -> (0 < r1)%N -> (0 < r2)%N -> att_shape L att -> shape L L a -> shape L L ainv ->
  forall (qr : mat R -> res (mat R * mat R)) (rand : nat -> nat -> nat -> mat R) (rsvd : nat -> mat R -> nat -> res (mat R * list R * mat R)),
  qr_ok qr -> (forall m, randn_ok (rand m)) -> inner_ok rsvd ->
  forall (N : Type) (tnorm : ten R -> N) (norm0 : N) (grew : N -> N -> bool) (n_iter : nat) (force : bool), (0 < n_iter)%N ->
  forall rt : @nti_state R -> mode -> routines R, (forall x md, rt_ok (rt x md)) ->
  forall argpart : nat -> list R -> nat -> list nat, argpartition_contract (fun x y : R => x <= y) argpart ->
  forall k : nat, Peano.le 1 k ->
  forall keep : list irow -> list irow, crops L s keep ->
  forall (table : list irow) (data : list prow), get_df_with_cropped_pos_column table L s = Ok data -> Z.le 2 (n_items_in (keep table)) ->
  forall (V T : Type) (norm : mat R -> V) (div : V -> V -> V) (minus_one : V) (clock : nat -> T)
         (test_users : list Z) (how_many : Z) (st0 : @nti_state R) (stream : list (list irow)), nt_seq st0 = nil ->
  let api := seq_api 0 1 +%R *%R (fun x y => x - y) of_val exceeds_eps is_one cfg L (r0, r1, r2) a ainv att s
               qr rand rsvd tnorm norm0 grew n_iter force rt argpart k in
  let n := n_steps how_many (length stream) in
  forall dyn,
  dynamical_experiment 0 (fun x y => x - y) norm div minus_one clock api (grow_3d L) test_users true how_many st0 data stream = Ok dyn ->
  exists model : nat -> @nti_state R,
  nti_train 0 +%R *%R of_val qr rand rsvd tnorm norm0 grew L (r0, r1, r2) a ainv n_iter force data nil = Ok (model 0%N) /\
  (forall t c, Peano.lt t n -> List.nth_error stream t = Some c ->
     nti_update 0 1 +%R *%R (fun x y => x - y) of_val exceeds_eps is_one cfg L a ainv att (rt (model t)) (model t) c s = Ok (model t.+1) /\
     exists h q, List.nth_error (d_hr dyn) t = Some h /\ List.nth_error (d_mrr dyn) t = Some q /\
       let P := past keep (keep table) stream t in
       step_report k (best (fun x y : R => x <= y) (nti_rec 0 +%R *%R (model t)) P) P c h q) /\
  length (d_hr dyn) = n /\ length (d_mrr dyn) = n /\ length (d_wji dyn) = Nat.sub n 1 /\
  List.Forall (fun w => Qle (Qmake Z0 1) w /\ Qle w (Qmake (Zpos 1) 1)) (d_wji dyn).
Proof.
  move=> R of_val ee io I1 cfg L r0 r1 r2 a ainv att s L2 P0 P1 P2 Ha Sa Si qr rand rsvd QR RA IN N tn n0 gr ni fo NI rt RT ap AP k k1 keep KE table data CR TW
    V T norm div mo clock tu hm st0 stream E0 api n dyn E.
  have [model [H1 H2]] := @Seqx_num.run_report R of_val ee io I1 cfg L r0 r1 r2 a ainv att s L2 P0 P1 P2 Ha Sa Si qr rand rsvd QR RA IN N tn n0 gr ni fo NI rt RT
    ap AP k k1 keep KE table data CR TW V T norm div mo clock tu hm st0 stream E0 dyn E.
  exists model. split; [by move: H1; rewrite /seq_train E0|exact: H2].
Qed.
Print Assumptions sequential_experiment_report.

(** Two users and three items, then two chunks, the first with a new user and a new item: the
    contracts hold, the run reports a hit and a miss.  A user who has taken one item twice and
    takes it again: the model trains, but the update refuses the chunk. *)
Example sequential_experiment_case :
  [/\ forall y, Nti_wit.f_one y = true -> y = 1, qr_ok Seqx_wit.x_qr, forall m, randn_ok (Nti_wit.f_rand m), inner_ok Nti_wit.f_rsvd
    & forall x md, rt_ok (Seqx_wit.x_rt x md)] /\
  argpartition_contract (fun x y : rat => x <= y) Full_wit.f_argpart /\ crops 2 true Seqx_wit.x_keep /\ shape 2 2 Seqx_wit.x_id /\
  get_df_with_cropped_pos_column Seqx_wit.x_table 2 true = Ok (Seqx_wit.x_data Seqx_wit.x_table) /\
  Z.le 2 (n_items_in (Seqx_wit.x_keep Seqx_wit.x_table)) /\
  (exists dyn, Seqx_wit.x_run VTIRecAInt 1 Seqx_wit.x_table [:: Seqx_wit.x_c1; Seqx_wit.x_c2] = Ok dyn /\
     d_hr dyn = [:: Full_wit.q1; Full_wit.q0] /\ d_mrr dyn = [:: Full_wit.q1; Full_wit.q0] /\ d_wji dyn = [:: Qmake Z0 2]) /\
  Nti_wit.is_ok (Seqx_wit.x_run VTIRecAInt 1 Seqx_wit.x_same nil) = true /\
  Seqx_wit.x_run VTIRecAInt 1 Seqx_wit.x_same [:: [:: Seqx_wit.x_row (Zpos 5) (Zpos 10) (Zpos 3)]] = Err ValueError.
Proof.
  split; [exact: Seqx_wit.x_contracts|]. split; [exact: Full_wit.f_argpart_ok|]. split; [exact: Seqx_wit.x_crops|].
  split; [exact: Seqx_wit.x_shape|]. split; [exact: Seqx_wit.x_crop|]. split; [exact: Seqx_wit.x_items|].
  split; [exact: Seqx_wit.x_result|exact: Seqx_wit.x_refused].
Qed.
