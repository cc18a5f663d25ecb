(** Property C92: experiments from a raw log, and what they owe to the order of its rows. *)
From Coq Require Import ZArith QArith List Sorting.Permutation.
From Verif Require Import Prelude DataPrep_model DataPrep_spec Recommend_spec Tables_model Tables_spec Stream_model Stream_spec Tensor_model Num_model
  Dynamic_model Full_model Pipe_model Pipe_spec Rawlog_spec Rawlog_main.
Set Warnings "-notation-overridden".
From mathcomp Require Import all_ssreflect all_algebra.
From Verif Require Import LinAlg_spec Num_spec.
From Verif Require Num_wit Full_wit Pipe_wit Rawlog_wit.
Set Implicit Arguments.
Unset Strict Implicit.
Unset Printing Implicit Defensive.
Import GRing.Theory Num.Theory.
Local Open Scope ring_scope.

(** C92.  Every prepared log is numbered and in day order, as C83 asks. *)
Theorem prepared_logs_in_day_order :
  forall (sort_time : list raw -> list raw) (data : list raw), sorts_by raw_time sort_time ->
  in_day_order (prepare_encoded sort_time data) /\ forall keep, in_day_order (prepare_ml20m sort_time keep data).
Proof. move=> sort_time data S. exact: (Rawlog_main.suited_main sort_time data S). Qed.
Print Assumptions prepared_logs_in_day_order.

(** C92.  A log without two rows in one second is prepared to the same table whatever the order
    of its rows and the sort. *)
Theorem untied_logs_prepared_alike :
  forall (sort_time sort_time' : list raw -> list raw) (data data' : list raw),
  sorts_by raw_time sort_time -> sorts_by raw_time sort_time' -> Permutation data data' -> NoDup (List.map raw_time data) ->
  prepare_encoded sort_time data = prepare_encoded sort_time' data' /\
  forall keep, prepare_ml20m sort_time keep data = prepare_ml20m sort_time' keep data'.
Proof. move=> st st' data data' S S' P N. exact: (Rawlog_main.distinct_main st st' data data' S S' P N). Qed.
Print Assumptions untied_logs_prepared_alike.

(** C92.  Amazon and Steam: the initial rows and the groups of an experiment are the same for
    every order of the log and every sort if and only if the cut does not fall into a second
    with two different rows. *)
Theorem encoded_split_determined_iff :
  forall (data : list raw) (cut : Z) (hm_min : option Z),
  (forall sort_time sort_time' sort_days sort_days' data' split split',
     sorts_by raw_time sort_time -> sorts_by raw_time sort_time' -> sorts_by tb_day sort_days -> sorts_by tb_day sort_days' ->
     Permutation data data' ->
     prepare_data_for_experiment tb_index tb_day sort_days (prepare_encoded sort_time data) cut hm_min = Ok split ->
     prepare_data_for_experiment tb_index tb_day sort_days' (prepare_encoded sort_time' data') cut hm_min = Ok split' ->
     same_split split split') <->
  ~ torn data (Z.to_nat cut).
Proof. move=> data cut hm. exact: (Rawlog_main.encoded_main data cut hm). Qed.
Print Assumptions encoded_split_determined_iff.

(** C92.  MovieLens: also the cut that drops the oldest rows must not fall into such a second. *)
Theorem ml20m_split_determined_iff :
  forall (keep : nat) (data : list raw) (cut : Z) (hm_min : option Z),
  (forall sort_time sort_time' sort_days sort_days' data' split split',
     sorts_by raw_time sort_time -> sorts_by raw_time sort_time' -> sorts_by tb_day sort_days -> sorts_by tb_day sort_days' ->
     Permutation data data' ->
     prepare_data_for_experiment tb_index tb_day sort_days (prepare_ml20m sort_time keep data) cut hm_min = Ok split ->
     prepare_data_for_experiment tb_index tb_day sort_days' (prepare_ml20m sort_time' keep data') cut hm_min = Ok split' ->
     same_split split split') <->
  ~ torn data (Nat.sub (length data) keep) /\ ~ torn data (Nat.add (Nat.sub (length data) keep) (Z.to_nat cut)).
Proof. move=> keep data cut hm. exact: (Rawlog_main.ml20m_main keep data cut hm). Qed.
Print Assumptions ml20m_split_determined_iff.

(** C92, the bad side.  Two orders of one log, the same stable sorts and the same SVD: one
    experiment reports HR 1, the other HR 0. *)
Theorem hr_independent_of_row_order_refuted :
  svds_mat_ok Rawlog_wit.l_svds /\ argpartition_contract (fun x y : rat => x <= y) Full_wit.f_argpart /\
  (forall A (key : A -> Z), sorts_by key (Pipe_wit.p_sort key)) /\
  exists (data data' : list raw) (cut how_many : Z) (k : nat), Permutation data data' /\
  let run data := full_dynamical_experiment (0 : rat) (fun x y => x - y) (fun _ => tt) (fun _ _ => tt) tt (fun _ => tt)
    (svd_api (0 : rat) +%R *%R Num_wit.o_rel Rawlog_wit.l_svds Full_wit.f_argpart k (Zpos 1)) grow_2d false entry_2d users_2d
    (Pipe_wit.p_sort tb_day) (Pipe_wit.p_sort snd) (prepare_encoded (Pipe_wit.p_sort raw_time) data) cut None how_many Num_wit.w_none in
  exists dyn dyn' h h', run data = Ok dyn /\ run data' = Ok dyn' /\ d_hr dyn = [:: h] /\ d_hr dyn' = [:: h'] /\ ~ Qeq h h'.
Proof.
  split; [exact: Rawlog_wit.l_svds_contract|]. split; [exact: Full_wit.f_argpart_ok|]. split; [exact: Pipe_wit.p_sorts|exact: Rawlog_wit.l_refuted].
Qed.
Print Assumptions hr_independent_of_row_order_refuted.

(** That log: a cut after 8 of its 9 rows falls into the second day, a cut after 7 between the
    days.  A log without ties. *)
Example torn_log_case : torn Rawlog_wit.l_data 8 /\ ~ torn Rawlog_wit.l_data 7 /\
  NoDup (List.map raw_time [:: Rawlog_wit.l_row 1 10 0; Rawlog_wit.l_row 2 20 2; Rawlog_wit.l_row 1 20 1]).
Proof. split; [exact: Rawlog_wit.l_torn|]. split; [exact: Rawlog_wit.l_whole|]. repeat constructor => //=; by move=> [|[]]. Qed.
