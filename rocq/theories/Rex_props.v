(** Property C84: whole experiments with TDRecReinit. *)
From Coq Require Import ZArith QArith.
From Verif Require Import Prelude DataPrep_model DataPrep_spec History_model History_spec Recommend_model Recommend_spec Psi_model Tirec_model Tirec_spec
  Tensor_model Matrix_model Attention_model LinAlg_model Tucker_model Hooi_model Upd_model Nti_model Dynamic_model Dynamic_spec Full_spec Seqx_spec Seqx_model
  Tables_model Stream_model Stream_spec Pipe_model Pipe_spec Rex_spec Rex_model.
Set Warnings "-notation-overridden".
From mathcomp Require Import all_ssreflect all_algebra.
From Verif Require Import LinAlg_spec Tucker_spec Hooi_spec Upd_spec Exact_spec Num_spec Nti_spec.
From Verif Require Rex_num Nti_wit Hooi_wit Seqx_wit Full_wit Tdx_wit Rex_wit Pipe_wit Rex_pipe.
Set Implicit Arguments.
Unset Strict Implicit.
Unset Printing Implicit Defensive.
Import GRing.Theory Num.Theory.
Local Open Scope ring_scope.

(** C84.  An experiment runs through exactly if the first table can be trained on, every chunk
    can be tested on what was on offer before it (the items of all tables so far, without those
    of the user's kept rows), and no chunk makes the newest item leave the table.  Otherwise, with
    these conditions, the run can only raise what a numerical routine raised. *)
Theorem reinit_experiment_outcome :
  forall (R : realFieldType) (of_val : Z -> R) (L r0 r1 r2 : nat) (a ainv : mat R),
  Peano.le 2 L -> (0 < r0)%N -> (0 < r1)%N -> (0 < r2)%N -> shape L L a -> shape L L ainv ->
  forall (qr : mat R -> res (mat R * mat R)) (rand : nat -> nat -> nat -> mat R) (rsvd : nat -> mat R -> nat -> res (mat R * list R * mat R)),
  qr_ok qr -> (forall m, randn_ok (rand m)) -> inner_ok rsvd ->
  forall (N : Type) (tnorm : ten R -> N) (norm0 : N) (grew : N -> N -> bool) (n_iter : nat) (force : bool), (0 < n_iter)%N ->
  forall argpart : nat -> list R -> nat -> list nat, argpartition_contract (fun x y : R => x <= y) argpart ->
  forall k : nat, Peano.le 1 k ->
  forall (V T : Type) (norm : mat R -> V) (div : V -> V -> V) (minus_one : V) (clock : nat -> T)
         (test_users : list Z) (how_many : Z) (st0 : @nti_state R) (table : list irow) (data : list prow) (stream : list (list irow)),
  get_df_with_cropped_pos_column table L true = Ok data -> nt_seq st0 = nil ->
  let n := n_steps how_many (length stream) in
  forall tables : nat -> list prow, successive L data stream n tables ->
  Z.le 2 (n_items_in (List.map p_row data)) ->
  let api := re_api 0 +%R *%R of_val L (r0, r1, r2) a ainv qr rand rsvd tnorm norm0 grew n_iter force argpart k in
  let possible := reinitialisable r0 r1 r2 L k test_users stream tables n in
  match dynamical_experiment 0 (fun x y => x - y) norm div minus_one clock api (grow_3d L) test_users false how_many st0 data stream with
  | Ok _ => possible
  | Err e => possible -> (exists x, qr x = Err e) \/ (exists t x r, rsvd t x r = Err e)
  end.
Proof. exact: Rex_num.run_outcome. Qed.
Print Assumptions reinit_experiment_outcome.

(** C84.  What it reports: the model of step [t] was trained on the table cropped after every
    chunk, starting from the factors and mappings of the one before; the tested users got the
    [k] items it scores highest among the items of all tables so far they have no kept row
    with. *)
Theorem reinit_experiment_report :
  forall (R : realFieldType) (of_val : Z -> R) (L r0 r1 r2 : nat) (a ainv : mat R),
  Peano.le 2 L -> (0 < r0)%N -> (0 < r1)%N -> (0 < r2)%N -> shape L L a -> shape L L ainv ->
  forall (qr : mat R -> res (mat R * mat R)) (rand : nat -> nat -> nat -> mat R) (rsvd : nat -> mat R -> nat -> res (mat R * list R * mat R)),
  qr_ok qr -> (forall m, randn_ok (rand m)) -> inner_ok rsvd ->
  forall (N : Type) (tnorm : ten R -> N) (norm0 : N) (grew : N -> N -> bool) (n_iter : nat) (force : bool), (0 < n_iter)%N ->
  forall argpart : nat -> list R -> nat -> list nat, argpartition_contract (fun x y : R => x <= y) argpart ->
  forall k : nat, Peano.le 1 k ->
  forall (V T : Type) (norm : mat R -> V) (div : V -> V -> V) (minus_one : V) (clock : nat -> T)
         (test_users : list Z) (how_many : Z) (st0 : @nti_state R) (table : list irow) (data : list prow) (stream : list (list irow)),
  get_df_with_cropped_pos_column table L true = Ok data -> nt_seq st0 = nil ->
  let n := n_steps how_many (length stream) in
  forall tables : nat -> list prow, successive L data stream n tables ->
  Z.le 2 (n_items_in (List.map p_row data)) ->
  let api := re_api 0 +%R *%R of_val L (r0, r1, r2) a ainv qr rand rsvd tnorm norm0 grew n_iter force argpart k in
  forall dyn,
  dynamical_experiment 0 (fun x y => x - y) norm div minus_one clock api (grow_3d L) test_users false how_many st0 data stream = Ok dyn ->
  exists model : nat -> @nti_state R,
  nti_train 0 +%R *%R of_val qr rand rsvd tnorm norm0 grew L (r0, r1, r2) a ainv n_iter force data nil = Ok (model 0%N) /\
  (forall t c, Peano.lt t n -> List.nth_error stream t = Some c ->
     re_train 0 +%R *%R of_val L (r0, r1, r2) a ainv qr rand rsvd tnorm norm0 grew n_iter force (model t) (tables t.+1) = Ok (model t.+1) /\
     exists h q, List.nth_error (d_hr dyn) t = Some h /\ List.nth_error (d_mrr dyn) t = Some q /\
       report_from k (best_from (fun x y : R => x <= y) (nti_rec 0 +%R *%R (model t)) (so_far tables t) (kept tables t))
         (so_far tables t) (kept tables t) c h q) /\
  length (d_hr dyn) = n /\ length (d_mrr dyn) = n /\ length (d_wji dyn) = Nat.sub n 1 /\
  List.Forall (fun w => Qle (Qmake Z0 1) w /\ Qle w (Qmake (Zpos 1) 1)) (d_wji dyn).
Proof.
  move=> R of_val L r0 r1 r2 a ainv L2 P0 P1 P2 Sa Si qr rand rsvd QR RA IN N tn n0 gr ni fo NI ap AP k k1 V T norm div mo clock tu hm st0 table data stream
    CR E0 n tables SU TW api dyn E.
  have [model [H1 H2]] := @Rex_num.run_report R of_val L r0 r1 r2 a ainv L2 P0 P1 P2 Sa Si qr rand rsvd QR RA IN N tn n0 gr ni fo NI
    ap AP k k1 V T norm div mo clock tu hm st0 table data stream CR E0 tables SU TW dyn E.
  exists model. split; [by move: H1; rewrite /seq_train E0|exact: H2].
Qed.
Print Assumptions reinit_experiment_report.

(** The tables of the two theorems exist whatever the stream. *)
Theorem reinit_tables_exist :
  forall (L : nat) (table : list irow) (data : list prow) (stream : list (list irow)) (n : nat),
  get_df_with_cropped_pos_column table L true = Ok data -> exists tables, successive L data stream n tables.
Proof. exact: Rex_wit.e_exists. Qed.
Print Assumptions reinit_tables_exist.

(** C84, the bad side.  Trainable tables and testable chunks are not enough: when the newest
    item leaves the table the run stops with ValueError, which no numerical routine raises. *)
Theorem reinit_experiment_refuted :
  (forall L, shape L L (Tdx_wit.t_id L)) /\
  [/\ qr_ok Seqx_wit.x_qr, forall m, randn_ok (Nti_wit.f_rand m) & inner_ok Nti_wit.f_rsvd] /\
  argpartition_contract (fun x y : rat => x <= y) Full_wit.f_argpart /\
  (forall e, (exists x, Seqx_wit.x_qr x = Err e) \/ (exists t x r, Nti_wit.f_rsvd t x r = Err e) -> e = LinAlgError) /\
  exists (L k : nat) (test_users : list Z) (table : list irow) (data : list prow) (stream : list (list irow)) (tables : nat -> list prow),
    Peano.le 2 L /\ Peano.le 1 k /\ get_df_with_cropped_pos_column table L true = Ok data /\ successive L data stream (length stream) tables /\
    (forall t, Peano.le t (length stream) -> Z.le 2 (n_items_in (kept tables t)) /\ seq_trainable 1 1 1 L (kept tables t)) /\
    (forall t c, List.nth_error stream t = Some c -> testable_from k test_users (so_far tables t) (kept tables t) c) /\ test_users <> nil /\
    dynamical_experiment (0 : rat) (fun x y => x - y) (fun _ => tt) (fun _ _ => tt) tt (fun _ => tt)
      (re_api (0 : rat) +%R *%R Nti_wit.f_of L (1, 1, 1)%N (Tdx_wit.t_id L) (Tdx_wit.t_id L) Seqx_wit.x_qr Nti_wit.f_rand Nti_wit.f_rsvd
         Hooi_wit.h_norm 0 Hooi_wit.h_grew 1 true Full_wit.f_argpart k)
      (grow_3d L) test_users false (Z.of_nat (length stream)) Seqx_wit.x_none data stream = Err ValueError.
Proof. exact: Rex_wit.e_refuted. Qed.
Print Assumptions reinit_experiment_refuted.

(** Item 10 leaves the table with the first chunk, the newest item stays; user 6 is still
    offered item 10 before the second chunk and the run reports the hit. *)
Example reinit_experiment_case :
  let data := Tdx_wit.t_data 2 Rex_wit.e_table in
  let tables := Rex_wit.e_tables 2 data Rex_wit.e_stream in
  get_df_with_cropped_pos_column Rex_wit.e_table 2 true = Ok data /\
  successive 2 data Rex_wit.e_stream 2 tables /\ Z.le 2 (n_items_in (List.map p_row data)) /\
  reinitialisable 1 1 1 2 2 [:: Zpos 6] Rex_wit.e_stream tables 2 /\
  ~ List.In (Zpos 10) (List.map r_item (kept tables 1)) /\ List.In (Zpos 10) (open_to (so_far tables 1) (kept tables 1) (Zpos 6)) /\
  exists dyn, Rex_wit.e_run 2 2 [:: Zpos 6] Rex_wit.e_table Rex_wit.e_stream = Ok dyn /\
     d_hr dyn = [:: Full_wit.q0; Full_wit.q1] /\ d_mrr dyn = [:: Full_wit.q0; Qmake (Zpos 1) 2] /\ d_wji dyn = [:: Qmake (Zpos 6) 6].
Proof. exact: Rex_wit.e_case. Qed.

(** C84.  From the prepared table: the condition that there are test users disappears. *)
Theorem reinit_pipeline_outcome :
  forall (R : realFieldType) (of_val : Z -> R) (L r0 r1 r2 : nat) (a ainv : mat R),
  Peano.le 2 L -> (0 < r0)%N -> (0 < r1)%N -> (0 < r2)%N -> shape L L a -> shape L L ainv ->
  forall (qr : mat R -> res (mat R * mat R)) (rand : nat -> nat -> nat -> mat R) (rsvd : nat -> mat R -> nat -> res (mat R * list R * mat R)),
  qr_ok qr -> (forall m, randn_ok (rand m)) -> inner_ok rsvd ->
  forall (N : Type) (tnorm : ten R -> N) (norm0 : N) (grew : N -> N -> bool) (n_iter : nat) (force : bool), (0 < n_iter)%N ->
  forall argpart : nat -> list R -> nat -> list nat, argpartition_contract (fun x y : R => x <= y) argpart ->
  forall k : nat, Peano.le 1 k ->
  forall (V T : Type) (norm : mat R -> V) (div : V -> V -> V) (minus_one : V) (clock : nat -> T) (st0 : @nti_state R), nt_seq st0 = nil ->
  forall (sort_days : list trow -> list trow) (sort_counts : list (Z * Z) -> list (Z * Z)),
  sorts_by tb_day sort_days -> sorts_by snd sort_counts ->
  forall (data : list trow) (cut : Z) (hm_min : option Z) (how_many : Z), Z.lt 0 how_many ->
  exists initial stream left, prepare_data_for_experiment tb_index tb_day sort_days data cut hm_min = Ok (initial, stream, left) /\
  let rows := List.map content initial in
  let chunks := List.map (fun g => List.map content g.2) stream in
  let n := n_steps how_many (length stream) in
  forall d tables, get_df_with_cropped_pos_column rows L true = Ok d -> successive L d chunks n tables -> Z.le 2 (n_items_in (List.map p_row d)) ->
  let test := stability_users users_3d sort_counts d left how_many in
  let possible := reinit_served r0 r1 r2 L k test chunks tables n in
  match full_dynamical_experiment 0 (fun x y => x - y) norm div minus_one clock
          (re_api 0 +%R *%R of_val L (r0, r1, r2) a ainv qr rand rsvd tnorm norm0 grew n_iter force argpart k) (grow_3d L) false
          (entry_3d L) users_3d sort_days sort_counts data cut hm_min how_many st0 with
  | Ok _ => possible
  | Err e => possible -> (exists x, qr x = Err e) \/ (exists t x r, rsvd t x r = Err e)
  end.
Proof.
  move=> R of_val L r0 r1 r2 a ainv L2 P0 P1 P2 Sa Si qr rand rsvd QR RA IN N tn n0 gr ni fo NI ap AP k k1 V T norm div mo clock st0 E0
    sd sc SD SC data cut hmin hm HM.
  apply: (@Rex_pipe.outcome_re sd sc SD SC data cut hmin hm HM (@nti_state R) V T R norm div mo clock _ st0 L k r0 r1 r2
    (fun e => (exists x, qr x = Err e) \/ (exists t x r, rsvd t x r = Err e))).
  move=> test table d stream tables CR n SU TW.
  exact: (@Rex_num.run_outcome R of_val L r0 r1 r2 a ainv L2 P0 P1 P2 Sa Si qr rand rsvd QR RA IN N tn n0 gr ni fo NI
    ap AP k k1 V T norm div mo clock test hm st0 table d stream CR E0 tables SU TW).
Qed.
Print Assumptions reinit_pipeline_outcome.

(** A prepared table with one group per day whose run goes through. *)
Example reinit_pipeline_case :
  in_day_order Pipe_wit.p_seq /\
  exists dyn, Rex_pipe.e_pipe = Ok dyn /\ d_hr dyn = [:: Full_wit.q1; Full_wit.q0] /\ d_mrr dyn = [:: Full_wit.q1; Full_wit.q0] /\ d_wji dyn = [:: Qmake Z0 2].
Proof. split; [exact: Pipe_wit.p_ordered_seq|exact: Rex_pipe.e_pipe_result]. Qed.
