(** Property C82: whole experiments with TDRec. *)
From Coq Require Import ZArith QArith.
From Verif Require Import Prelude DataPrep_model DataPrep_spec History_model History_spec Recommend_model Recommend_spec Psi_model Tirec_model Tirec_spec
  Tensor_model Matrix_model Attention_model LinAlg_model Tucker_model Hooi_model Upd_model Nti_model Dynamic_model Dynamic_spec Full_spec Seqx_spec Seqx_model Tdx_spec Tdx_model.
Set Warnings "-notation-overridden".
From mathcomp Require Import all_ssreflect all_algebra.
From Verif Require Import LinAlg_spec Tucker_spec Hooi_spec Upd_spec Exact_spec Num_spec Nti_spec.
From Verif Require Tdx_num Nti_wit Hooi_wit Seqx_wit Full_wit Tdx_wit.
Set Implicit Arguments.
Unset Strict Implicit.
Unset Printing Implicit Defensive.
Import GRing.Theory Num.Theory.
Local Open Scope ring_scope.

(** C82.  An experiment that runs through had, before every chunk, a table the model can be
    trained on and that serves the chunk, and the first chunk left no fewer items.  If no chunk
    leaves fewer items, these conditions are enough: the run can only raise what a numerical
    routine raised. *)
Theorem retrained_experiment_outcome :
  forall (R : realFieldType) (of_val : Z -> R) (L r0 r1 r2 : nat) (a ainv : mat R),
  Peano.le 2 L -> (0 < r0)%N -> (0 < r1)%N -> (0 < r2)%N -> shape L L a -> shape L L ainv ->
  forall (qr : mat R -> res (mat R * mat R)) (rand : nat -> nat -> nat -> mat R) (rsvd : nat -> mat R -> nat -> res (mat R * list R * mat R)),
  qr_ok qr -> (forall m, randn_ok (rand m)) -> inner_ok rsvd ->
  forall (N : Type) (tnorm : ten R -> N) (norm0 : N) (grew : N -> N -> bool) (n_iter : nat) (force : bool), (0 < n_iter)%N ->
  forall argpart : nat -> list R -> nat -> list nat, argpartition_contract (fun x y : R => x <= y) argpart ->
  forall k : nat, Peano.le 1 k ->
  forall keep : list irow -> list irow, crops L true keep ->
  forall (V T : Type) (norm : mat R -> V) (div : V -> V -> V) (minus_one : V) (clock : nat -> T)
         (test_users : list Z) (how_many : Z) (st0 : @nti_state R) (table : list irow) (data : list prow) (stream : list (list irow)),
  get_df_with_cropped_pos_column table L true = Ok data -> nt_seq st0 = nil ->
  let n := n_steps how_many (length stream) in
  (forall t, Peano.le t n -> Z.le 2 (n_items_in (recropped keep table stream t))) ->
  let api := td_api 0 +%R *%R of_val L (r0, r1, r2) a ainv qr rand rsvd tnorm norm0 grew n_iter force argpart k in
  let possible := retrainable r0 r1 r2 L k keep test_users table stream n in
  match dynamical_experiment 0 (fun x y => x - y) norm div minus_one clock api (grow_3d L) test_users false how_many st0 data stream with
  | Ok _ => possible /\ (Peano.le 2 n -> items_stay keep table stream 0)
  | Err e => possible /\ (forall t, Peano.lt t.+1 n -> items_stay keep table stream t) ->
      (exists x, qr x = Err e) \/ (exists t x r, rsvd t x r = Err e)
  end.
Proof. exact: Tdx_num.run_outcome. Qed.
Print Assumptions retrained_experiment_outcome.

(** C82.  What it reports: the model of step [t] was trained on the table cropped after every
    chunk, with the histories the object had; the tested users got the [k] items it scores
    highest among those they have no kept row with, and users with [L - 1] kept rows or more
    those a new object trained on the same table scores highest. *)
Theorem retrained_experiment_report :
  forall (R : realFieldType) (of_val : Z -> R) (L r0 r1 r2 : nat) (a ainv : mat R),
  Peano.le 2 L -> (0 < r0)%N -> (0 < r1)%N -> (0 < r2)%N -> shape L L a -> shape L L ainv ->
  forall (qr : mat R -> res (mat R * mat R)) (rand : nat -> nat -> nat -> mat R) (rsvd : nat -> mat R -> nat -> res (mat R * list R * mat R)),
  qr_ok qr -> (forall m, randn_ok (rand m)) -> inner_ok rsvd ->
  forall (N : Type) (tnorm : ten R -> N) (norm0 : N) (grew : N -> N -> bool) (n_iter : nat) (force : bool), (0 < n_iter)%N ->
  forall argpart : nat -> list R -> nat -> list nat, argpartition_contract (fun x y : R => x <= y) argpart ->
  forall k : nat, Peano.le 1 k ->
  forall keep : list irow -> list irow, crops L true keep ->
  forall (V T : Type) (norm : mat R -> V) (div : V -> V -> V) (minus_one : V) (clock : nat -> T)
         (test_users : list Z) (how_many : Z) (st0 : @nti_state R) (table : list irow) (data : list prow) (stream : list (list irow)),
  get_df_with_cropped_pos_column table L true = Ok data -> nt_seq st0 = nil ->
  let n := n_steps how_many (length stream) in
  (forall t, Peano.le t n -> Z.le 2 (n_items_in (recropped keep table stream t))) ->
  let api := td_api 0 +%R *%R of_val L (r0, r1, r2) a ainv qr rand rsvd tnorm norm0 grew n_iter force argpart k in
  let fit tbl seq := nti_train 0 +%R *%R of_val qr rand rsvd tnorm norm0 grew L (r0, r1, r2) a ainv n_iter force tbl seq in
  let top st P u row := best (fun x y : R => x <= y) (nti_rec 0 +%R *%R st) P u row in
  forall dyn,
  dynamical_experiment 0 (fun x y => x - y) norm div minus_one clock api (grow_3d L) test_users false how_many st0 data stream = Ok dyn ->
  exists (model fresh : nat -> @nti_state R) (tables : nat -> list prow),
  fit data nil = Ok (model 0%N) /\ tables 0%N = data /\
  (forall t c, Peano.lt t n -> List.nth_error stream t = Some c ->
     get_df_with_cropped_pos_column (List.app (List.map p_row (tables t)) c) L true = Ok (tables t.+1) /\
     fit (tables t.+1) (nt_seq (model t)) = Ok (model t.+1) /\
     fit (tables t) nil = Ok (fresh t) /\
     exists h q, List.nth_error (d_hr dyn) t = Some h /\ List.nth_error (d_mrr dyn) t = Some q /\
       let P := recropped keep table stream t in
       step_report k (fun u row => top (model t) P u row /\ (Peano.le (L - 1) (length (rows_of u P)) -> top (fresh t) P u row)) P c h q) /\
  length (d_hr dyn) = n /\ length (d_mrr dyn) = n /\ length (d_wji dyn) = Nat.sub n 1 /\
  List.Forall (fun w => Qle (Qmake Z0 1) w /\ Qle w (Qmake (Zpos 1) 1)) (d_wji dyn).
Proof.
  move=> R of_val L r0 r1 r2 a ainv L2 P0 P1 P2 Sa Si qr rand rsvd QR RA IN N tn n0 gr ni fo NI ap AP k k1 keep KE V T norm div mo clock tu hm st0 table data stream
    CR E0 n TW api fit top dyn E.
  have [model [fresh [tables [H1 H2]]]] := @Tdx_num.run_report R of_val L r0 r1 r2 a ainv L2 P0 P1 P2 Sa Si qr rand rsvd QR RA IN N tn n0 gr ni fo NI
    ap AP k k1 keep KE V T norm div mo clock tu hm st0 table data stream CR E0 TW dyn E.
  exists model, fresh, tables. split; [by move: H1; rewrite /seq_train E0|exact: H2].
Qed.
Print Assumptions retrained_experiment_report.

(** C82, the bad side.  Cropping may leave fewer items.  Then an experiment all of whose tables
    can be trained on and serve their chunks may stop: on a stale index in a history
    (IndexError), on item factors of different sizes (ValueError), or with an index outside the
    array in the stability measure (OutOfBounds), though no numerical routine raises these. *)
Theorem retrained_experiment_refuted :
  (forall L, Peano.le 1 L -> crops L true (Tdx_wit.t_keep L) /\ shape L L (Tdx_wit.t_id L)) /\
  [/\ qr_ok Seqx_wit.x_qr, forall m, randn_ok (Nti_wit.f_rand m) & inner_ok Nti_wit.f_rsvd] /\
  argpartition_contract (fun x y : rat => x <= y) Full_wit.f_argpart /\
  (forall e, (exists x, Seqx_wit.x_qr x = Err e) \/ (exists t x r, Nti_wit.f_rsvd t x r = Err e) -> e = LinAlgError) /\
  forall e, (e = IndexError \/ e = ValueError \/ e = OutOfBounds) ->
  exists (L k : nat) (test_users : list Z) (table : list irow) (data : list prow) (stream : list (list irow)),
    Peano.le 2 L /\ Peano.le 1 k /\ get_df_with_cropped_pos_column table L true = Ok data /\
    (forall t, Peano.le t (length stream) -> Z.le 2 (n_items_in (recropped (Tdx_wit.t_keep L) table stream t))) /\
    retrainable 1 1 1 L k (Tdx_wit.t_keep L) test_users table stream (length stream) /\
    dynamical_experiment (0 : rat) (fun x y => x - y) (fun _ => tt) (fun _ _ => tt) tt (fun _ => tt)
      (td_api (0 : rat) +%R *%R Nti_wit.f_of L (1, 1, 1)%N (Tdx_wit.t_id L) (Tdx_wit.t_id L) Seqx_wit.x_qr Nti_wit.f_rand Nti_wit.f_rsvd
         Hooi_wit.h_norm 0 Hooi_wit.h_grew 1 true Full_wit.f_argpart k)
      (grow_3d L) test_users false (Z.of_nat (length stream)) Seqx_wit.x_none data stream = Err e.
Proof. exact: Tdx_wit.t_refuted. Qed.
Print Assumptions retrained_experiment_refuted.

(** Two users and three items, then two chunks, the first with a new user and a new item: the
    hypotheses hold, no chunk leaves fewer items, the run reports a hit and a miss. *)
Example retrained_experiment_case :
  Z.le 2 (n_items_in (recropped (Tdx_wit.t_keep 2) Seqx_wit.x_table Tdx_wit.t_stream 0)) /\
  retrainable 1 1 1 2 1 (Tdx_wit.t_keep 2) [:: Zpos 6] Seqx_wit.x_table Tdx_wit.t_stream 2 /\
  items_stay (Tdx_wit.t_keep 2) Seqx_wit.x_table Tdx_wit.t_stream 0 /\
  exists dyn, Tdx_wit.t_run 2 1 [:: Zpos 6] Seqx_wit.x_table Tdx_wit.t_stream = Ok dyn /\
     d_hr dyn = [:: Full_wit.q1; Full_wit.q0] /\ d_mrr dyn = [:: Full_wit.q1; Full_wit.q0] /\ d_wji dyn = [:: Qmake Z0 2].
Proof. exact: Tdx_wit.t_case. Qed.
