(** Property C86: the search for the parameters of TDRec, and the experiments with them. *)
From Coq Require Import ZArith QArith List.
From Verif Require Import Prelude DataPrep_model DataPrep_spec History_model Recommend_model Recommend_spec Psi_model Tirec_model
  Tables_model Stream_model Stream_spec Search_model Search_spec Tensor_model Matrix_model Attention_model LinAlg_model Hooi_model Nti_model
  Dynamic_model Dynamic_spec Full_spec Full_model Seqx_spec Seqx_model Pipe_model Pipe_spec Hps_model Hps_spec Hpt_model.
Set Warnings "-notation-overridden".
From mathcomp Require Import all_ssreflect all_algebra.
From Verif Require Import LinAlg_spec Tucker_spec Hooi_spec Upd_spec Exact_spec Num_spec Nti_spec Hpt_spec.
From Verif Require Full_wit Nti_wit Hooi_wit Seqx_wit Seqx_num Pipe_wit Hpt_num Hpt_main Hpt_tuned Hpt_wit.
Set Implicit Arguments.
Unset Strict Implicit.
Unset Printing Implicit Defensive.
Import GRing.Theory Num.Theory.
Local Open Scope ring_scope.

(** C86.  The search crops the initial rows to the last [L] of every user and parts them by
    their days.  If it gets through, the saved table lists, configuration after configuration,
    the recorded scores of its run on the earlier part, numbered from 1: HR, on the later part,
    of the model after each sweep; recording ends before the fourth score in a row without a new
    best one, or after all sweeps.  It gets through only if every configuration fits the
    earlier part and the later part can be tested; otherwise only numpy and scipy can stop it. *)
Theorem tdrec_search_outcome :
  forall (R : realFieldType) (of_val : Z -> R) (L : nat) (decay : Q -> nat -> R) (inv : mat R -> res (mat R)),
  Peano.le 2 L -> inv_ok inv ->
  forall (qr : mat R -> res (mat R * mat R)) (rand : nat -> nat -> nat -> mat R) (rsvd : nat -> mat R -> nat -> res (mat R * list R * mat R)),
  qr_ok qr -> (forall m, randn_ok (rand m)) -> inner_ok rsvd ->
  forall (N : Type) (tnorm : ten R -> N) (norm0 : N) (grew : N -> N -> bool) (n_iter : nat), (0 < n_iter)%N ->
  forall argpart : nat -> list R -> nat -> list nat, argpartition_contract (fun x y : R => x <= y) argpart ->
  forall k : nat, Peano.le 1 k ->
  forall (sort_days : list trow -> list trow) (data : list trow) (cut : Z) (q : Q) (grid : list (Tensor_model.coord * Q)),
  (forall cfg, List.In cfg grid -> positive cfg) ->
  let rows := List.map content (given_rows data cut) in
  let outcome := hyperparameters_search_tdrec 0 1 +%R *%R of_val L decay inv qr rand rsvd tnorm norm0 grew n_iter argpart k sort_days data cut q grid in
  (rows = nil /\ outcome = Err KeyError) \/
  exists d, get_df_with_cropped_pos_column rows L true = Ok d /\
  ((~ (Qle (Qmake Z0 1) q /\ Qle q (Qmake (Zpos 1) 1)) /\ outcome = Err ValueError) \/
   exists train valid, parted day_of q d train valid /\
   let P := List.map p_row train in let tests := List.map p_row valid in
   (Z.le 2 (n_items_in P) ->
    match outcome with
    | Ok table => exists kepts, List.Forall2 (fun cfg kept =>
          [/\ fit L cfg P, testable k nil P tests & tried of_val L decay inv qr rand rsvd n_iter k cfg train tests kept]) grid kepts /\
        table = List.concat (List.map (fun ck => rows_of_config ck.1 ck.2) (List.combine grid kepts))
    | Err e => (forall cfg, List.In cfg grid -> fit L cfg P) /\ testable k nil P tests ->
        (exists x, inv x = Err e) \/ (exists x, qr x = Err e) \/ (exists t x r, rsvd t x r = Err e)
    end)).
Proof.
  move=> R of_val L decay inv L2 INV qr rand rsvd QR RA IN N tn n0 gr ni NI ap AP k k1 sd data cut q grid POS.
  exact: (@Hpt_main.search_outcome R of_val L decay inv L2 INV qr rand rsvd QR RA IN N tn n0 gr ni NI ap AP k k1 sd data cut q grid POS).
Qed.
Print Assumptions tdrec_search_outcome.

(** Two configurations, four recorded scores each (six sweeps were allowed); with a rank that
    does not fit together nothing is saved. *)
Example tdrec_search_case :
  [/\ inv_ok Hpt_wit.g_inv, qr_ok Seqx_wit.x_qr, inner_ok Nti_wit.f_rsvd & argpartition_contract (fun x y : rat => x <= y) Full_wit.f_argpart] /\
  (forall cfg, List.In cfg Hpt_wit.g_grid -> positive cfg) /\
  two_items 2 Full_wit.q1 (List.map content (given_rows Hpt_wit.g_data (Zpos 5))) /\
  Hpt_wit.g_search Hpt_wit.g_data (Zpos 5) Hpt_wit.g_grid = Ok Hpt_wit.g_table /\
  Hpt_wit.g_search Hpt_wit.g_data (Zpos 5) (Hpt_wit.g_grid ++ [:: ((1, 2, 1)%N, Full_wit.q0)]) = Err RuntimeError.
Proof.
  case: Seqx_wit.x_contracts => [_ Q _ I _].
  split; [split; [exact: Hpt_wit.g_inv_ok|exact: Q|exact: I|exact: Full_wit.f_argpart_ok]|]. split; [exact: Hpt_wit.g_positive|].
  split; [exact: Hpt_wit.g_two|]. split; [exact: Hpt_wit.g_found|exact: Hpt_wit.g_bad].
Qed.

(** C86.  The parameters taken from the search are one of the given configurations, with one of
    the first five sweeps, and the rank fits the whole cropped initial table; for Amazon beauty
    and Steam there always is a choice. *)
Theorem tdrec_search_choice :
  forall (R : realFieldType) (of_val : Z -> R) (L : nat) (decay : Q -> nat -> R) (inv : mat R -> res (mat R)),
  Peano.le 2 L -> inv_ok inv ->
  forall (qr : mat R -> res (mat R * mat R)) (rand : nat -> nat -> nat -> mat R) (rsvd : nat -> mat R -> nat -> res (mat R * list R * mat R)),
  qr_ok qr -> (forall m, randn_ok (rand m)) -> inner_ok rsvd ->
  forall (N : Type) (tnorm : ten R -> N) (norm0 : N) (grew : N -> N -> bool) (n_iter : nat), (0 < n_iter)%N ->
  forall argpart : nat -> list R -> nat -> list nat, argpartition_contract (fun x y : R => x <= y) argpart ->
  forall k : nat, Peano.le 1 k ->
  forall (sort_days : list trow -> list trow) (data : list trow) (cut : Z) (q : Q) (grid : list (Tensor_model.coord * Q)) (table : list trial),
  (forall cfg, List.In cfg grid -> positive cfg) -> two_items L q (List.map content (given_rows data cut)) ->
  hyperparameters_search_tdrec 0 1 +%R *%R of_val L decay inv qr rand rsvd tnorm norm0 grew n_iter argpart k sort_days data cut q grid = Ok table ->
  forall keep : list irow -> list irow, crops L true keep ->
  (forall ds, ds = AMZ_B \/ ds = STEAM -> grid <> nil -> exists c, get_optimal_tdrec_params ds table = Ok c) /\
  forall ds rank att it, get_optimal_tdrec_params ds table = Ok (rank, att, it) ->
    exists r0 r1 r2, rank = (Z.of_nat r0, Z.of_nat r1, Z.of_nat r2) /\ List.In ((r0, r1, r2), att) grid /\ (Z.le 1 it /\ Z.le it (Zpos 5)) /\
      seq_trainable r0 r1 r2 L (keep (List.map content (given_rows data cut))).
Proof.
  move=> R of_val L decay inv L2 INV qr rand rsvd QR RA IN N tn n0 gr ni NI ap AP k k1 sd data cut q grid table POS TWO E keep KE.
  exact: (@Hpt_tuned.chosen_main R of_val L decay inv L2 INV qr rand rsvd QR RA IN N tn n0 gr ni NI ap AP k k1 sd data cut q grid table POS TWO E keep KE).
Qed.
Print Assumptions tdrec_search_choice.

Example tdrec_search_choice_case :
  crops 2 true Seqx_wit.x_keep /\
  get_optimal_tdrec_params STEAM Hpt_wit.g_table = Ok ((Zpos 1, Zpos 1, Zpos 1), Full_wit.q0, Zpos 1) /\
  get_optimal_tdrec_params ML20M Hpt_wit.g_table = Ok ((Zpos 1, Zpos 1, Zpos 1), Full_wit.qhalf, Zpos 1).
Proof. split; [exact: Seqx_wit.x_crops|exact: Hpt_wit.g_chosen]. Qed.

(** C86.  Rows of the stream never influence the search. *)
Theorem tdrec_search_ignores_stream :
  forall (R : realFieldType) (of_val : Z -> R) (L : nat) (decay : Q -> nat -> R) (inv : mat R -> res (mat R))
         (qr : mat R -> res (mat R * mat R)) (rand : nat -> nat -> nat -> mat R) (rsvd : nat -> mat R -> nat -> res (mat R * list R * mat R))
         (N : Type) (tnorm : ten R -> N) (norm0 : N) (grew : N -> N -> bool) (n_iter : nat) (argpart : nat -> list R -> nat -> list nat) (k : nat)
         (sort_days : list trow -> list trow) (data data' : list trow) (cut : Z) (q : Q) (grid : list (Tensor_model.coord * Q)),
  given_rows data cut = given_rows data' cut ->
  hyperparameters_search_tdrec 0 1 +%R *%R of_val L decay inv qr rand rsvd tnorm norm0 grew n_iter argpart k sort_days data cut q grid =
  hyperparameters_search_tdrec 0 1 +%R *%R of_val L decay inv qr rand rsvd tnorm norm0 grew n_iter argpart k sort_days data' cut q grid.
Proof.
  move=> R of_val L decay inv qr rand rsvd N tn n0 gr ni ap k sd data data' cut q grid.
  exact: (@Hpt_tuned.search_early R of_val L decay inv qr rand rsvd N tn n0 gr ni ap k sd data data' cut q grid).
Qed.
Print Assumptions tdrec_search_ignores_stream.

Example tdrec_search_ignores_stream_case :
  given_rows Hpt_wit.g_data (Zpos 5) = given_rows (List.firstn 5 Hpt_wit.g_data) (Zpos 5) /\ Hpt_wit.g_data <> List.firstn 5 Hpt_wit.g_data.
Proof. split; [vm_compute; reflexivity|]. by move/(f_equal (@length _)). Qed.

(** C86.  The experiment with TIRec or TIRecA and the rank taken from the search: it gets
    through just when every step can be tested and updated; that the rank fits need not be
    asked. *)
Theorem sequential_tuned_pipeline :
  forall (R : realFieldType) (of_val : Z -> R) (L : nat) (decay : Q -> nat -> R) (inv : mat R -> res (mat R)),
  Peano.le 2 L -> inv_ok inv ->
  forall (qr : mat R -> res (mat R * mat R)) (rand : nat -> nat -> nat -> mat R) (rsvd : nat -> mat R -> nat -> res (mat R * list R * mat R)),
  qr_ok qr -> (forall m, randn_ok (rand m)) -> inner_ok rsvd ->
  forall (N : Type) (tnorm : ten R -> N) (norm0 : N) (grew : N -> N -> bool) (n_iter : nat), (0 < n_iter)%N ->
  forall argpart : nat -> list R -> nat -> list nat, argpartition_contract (fun x y : R => x <= y) argpart ->
  forall k : nat, Peano.le 1 k ->
  forall (sort_days : list trow -> list trow) (data : list trow) (cut : Z) (q : Q) (grid : list (Tensor_model.coord * Q)) (table : list trial),
  (forall cfg, List.In cfg grid -> positive cfg) -> two_items L q (List.map content (given_rows data cut)) ->
  hyperparameters_search_tdrec 0 1 +%R *%R of_val L decay inv qr rand rsvd tnorm norm0 grew n_iter argpart k sort_days data cut q grid = Ok table ->
  sorts_by tb_day sort_days ->
  forall keep : list irow -> list irow, crops L true keep ->
  forall (ds : dataset) (r0 r1 r2 : nat) (att_f : Q) (it : Z),
  get_optimal_tdrec_params ds table = Ok ((Z.of_nat r0, Z.of_nat r1, Z.of_nat r2), att_f, it) ->
  forall (exceeds_eps is_one : R -> bool), (forall y, is_one y = true -> y = 1) ->
  forall cfg (a ainv : mat R) (att : option (mat R)), att_shape L att -> shape L L a -> shape L L ainv ->
  forall rt : @nti_state R -> mode -> routines R, (forall x md, rt_ok (rt x md)) ->
  forall (force : bool) (V T : Type) (norm : mat R -> V) (div : V -> V -> V) (minus_one : V) (clock : nat -> T) (st0 : @nti_state R), nt_seq st0 = nil ->
  forall sort_counts : list (Z * Z) -> list (Z * Z), sorts_by snd sort_counts ->
  forall (hm_min : option Z) (how_many : Z), Z.lt 0 how_many ->
  exists stream left d, prepare_data_for_experiment tb_index tb_day sort_days data cut hm_min = Ok (given_rows data cut, stream, left) /\
  let rows := List.map content (given_rows data cut) in
  get_df_with_cropped_pos_column rows L true = Ok d /\
  let test := stability_users users_3d sort_counts d left how_many in
  let chunks := List.map (fun g => List.map content g.2) stream in
  let possible := served k (seq_fits (nc_variant cfg) L keep) keep test (keep rows) chunks (n_steps how_many (length stream)) in
  match full_dynamical_experiment 0 (fun x y => x - y) norm div minus_one clock
          (seq_api 0 1 +%R *%R (fun x y => x - y) of_val exceeds_eps is_one cfg L (r0, r1, r2) a ainv att true
             qr rand rsvd tnorm norm0 grew n_iter force rt argpart k) (grow_3d L) true
          (entry_3d L) users_3d sort_days sort_counts data cut hm_min how_many st0 with
  | Ok _ => possible
  | Err e => possible -> (exists x, qr x = Err e) \/ (exists t x r, rsvd t x r = Err e) \/ (exists x md, rt_raises (rt x md) e)
  end.
Proof.
  move=> R of_val L decay inv L2 INV qr rand rsvd QR RA IN N tn n0 gr ni NI ap AP k k1 sd data cut q grid table POS TWO E SD keep KE ds r0 r1 r2 att_f it C
    ee io I1 cfg a ainv att Ha Sa Si rt RT fo V T norm div mo clock st0 E0 sc SC hmin hm HM.
  have [[P0 P1 P2] _] := @Hpt_tuned.chosen_ranks R of_val L decay inv L2 INV qr rand rsvd QR RA IN N tn n0 gr ni NI ap AP k k1 sd data cut q grid table POS TWO E keep KE ds r0 r1 r2 att_f it C.
  apply: (@Hpt_tuned.tuned R of_val L decay inv L2 INV qr rand rsvd QR RA IN N tn n0 gr ni NI ap AP k k1 sd data cut q grid table POS TWO E SD keep KE ds r0 r1 r2 att_f it C
    (@nti_state R) V T norm div mo clock _ st0 sc hmin hm SC HM (seq_fits (nc_variant cfg) L keep)
    (fun e => (exists x, qr x = Err e) \/ (exists t x r, rsvd t x r = Err e) \/ (exists x md, rt_raises (rt x md) e))).
  move=> test tab d stream CR TW n.
  exact: (@Seqx_num.run_outcome R of_val ee io I1 cfg L r0 r1 r2 a ainv att true L2 P0 P1 P2 Ha Sa Si qr rand rsvd QR RA IN N tn n0 gr ni fo NI rt RT
    ap AP k k1 keep KE tab d CR TW V T norm div mo clock test hm st0 stream E0).
Qed.
Print Assumptions sequential_tuned_pipeline.

Example sequential_tuned_case :
  sorts_by tb_day (Pipe_wit.p_sort tb_day) /\ sorts_by snd (Pipe_wit.p_sort (@snd Z Z)) /\
  exists dyn, Hpt_wit.g_run = Ok dyn /\ d_hr dyn = [:: Full_wit.q1; Full_wit.q1].
Proof.
  split; [exact: Pipe_wit.p_sorts|]. split; [exact: Pipe_wit.p_sorts|].
  case: Hpt_wit.g_result => dyn [E [H _]]. exists dyn. split; [exact: E|exact: H].
Qed.

(** C86.  A rank with which the models can be trained on the initial rows can still stop the
    search: nobody has a full history before the days held back. *)
Theorem tdrec_search_fitting_rank_refuted :
  exists (data : list trow) (cut : Z) (cfg : Tensor_model.coord * Q),
    two_items 2 Full_wit.q1 (List.map content (given_rows data cut)) /\
    fit 2 cfg (Seqx_wit.x_keep (List.map content (given_rows data cut))) /\ Hpt_wit.g_search data cut [:: cfg] = Err ValueError.
Proof.
  exists Hpt_wit.g_alone, (Zpos 4), ((1, 1, 1)%N, Full_wit.q0).
  split; [exact: Hpt_wit.g_alone_two|]. split; [exact: Hpt_wit.g_alone_fits|exact: Hpt_wit.g_alone_fails].
Qed.
Print Assumptions tdrec_search_fitting_rank_refuted.

(** C86.  One configuration that does not fit loses the results of all the others. *)
Theorem tdrec_search_keeps_good_ranks_refuted :
  exists (data : list trow) (cut : Z) (grid : list (Tensor_model.coord * Q)) (bad : Tensor_model.coord * Q) (table : list trial),
    Hpt_wit.g_search data cut grid = Ok table /\ table <> nil /\ Hpt_wit.g_search data cut (grid ++ [:: bad]) = Err RuntimeError.
Proof.
  exists Hpt_wit.g_data, (Zpos 5), Hpt_wit.g_grid, ((1, 2, 1)%N, Full_wit.q0), Hpt_wit.g_table.
  split; [exact: Hpt_wit.g_found|]. split; [discriminate|exact: Hpt_wit.g_bad].
Qed.
Print Assumptions tdrec_search_keeps_good_ranks_refuted.
