(** C109: starting an experiment later. *)
From Coq Require Import ZArith QArith.
From Coq Require List.
From Verif Require Import Prelude DataPrep_model Psi_model Tensor_model Matrix_model LinAlg_model Num_model Dynamic_model Dynamic_spec Full_model Later_spec Later_main.
Set Warnings "-notation-overridden".
From mathcomp Require Import all_ssreflect all_algebra.
From Verif Require Import LinAlg_spec Upd_spec Num_spec Num_wit Full_wit Later_svd.
Set Implicit Arguments.
Unset Strict Implicit.
Unset Printing Implicit Defensive.
Import GRing.Theory.
Local Open Scope ring_scope.

(** C109: a model that is trained anew on the concatenated table, and never loses items, reports
    the same from a given group on wherever the experiment starts: with the first [j] groups
    moved into the initial table, a run succeeds if the longer one does, and all its series
    are the tails of the longer ones. *)
Theorem starting_later_reports_the_tail :
  forall (S D A V T : Type) (zero : A) (sub : A -> A -> A) (norm : mat A -> V) (div : V -> V -> V) (minus_one : V) (clock : nat -> T)
    (m : api S D A) (grow : D -> list irow -> res D) (test_users : list Z), forgets m -> keeps_items m grow ->
  forall (how_many : Z) (st0 st0' : S) (initial : D) (stream : list (list irow)) (dyn : dynamics T V) (j : nat),
  let experiment := dynamical_experiment zero sub norm div minus_one clock m grow test_users false in
  experiment how_many st0 initial stream = Ok dyn -> Peano.lt j (n_steps how_many (length stream)) ->
  exists initial' dyn', grown grow initial (List.firstn j stream) = Ok initial' /\
    experiment (left_over how_many j) st0' initial' (List.skipn j stream) = Ok dyn' /\ tail_of j dyn dyn'.
Proof. exact (fun S D A V T zero sub norm div m1 clock m grow tu F K hm st0 st0' d s dyn j => start_later zero sub norm div m1 clock m grow tu F K hm st0 st0' d s dyn j). Qed.
Print Assumptions starting_later_reports_the_tail.

(** C109: SVD is such a model, for every svds within its contract. *)
Theorem svd_starting_later :
  forall (R : realFieldType) (of_rel : Z -> R) svds (argpart : nat -> list R -> nat -> list nat) (k : nat) (rank : Z), svds_mat_ok svds ->
  forall (V T : Type) (norm : mat R -> V) (div : V -> V -> V) (minus_one : V) (clock : nat -> T)
    (test_users : list Z) (how_many : Z) (st0 st0' : @num_state R) initial stream dyn (j : nat),
  let experiment := dynamical_experiment 0 (fun x y => x - y) norm div minus_one clock (svd_api 0 +%R *%R of_rel svds argpart k rank) grow_2d test_users false in
  experiment how_many st0 initial stream = Ok dyn -> Peano.lt j (n_steps how_many (length stream)) ->
  exists dyn', experiment (left_over how_many j) st0' (initial ++ List.concat (List.firstn j stream))%list (List.skipn j stream) = Ok dyn' /\ tail_of j dyn dyn'.
Proof. exact: svd_later. Qed.
Print Assumptions svd_starting_later.

(** C109: PSI is not: after an update it can stand elsewhere than after a training on all rows. *)
Theorem psi_forgets_refuted :
  exists (qr : mat rat -> res (mat rat * mat rat)) sv rsvd eps argsort normal svds (of_rel : Z -> rat) (argpart : nat -> list rat -> nat -> list nat) cfg initial chunk,
  [/\ qr_ok qr, svd_ok sv, truncated_ok rsvd, argsort_ok (fun x y : rat => x <= y) argsort & svds_mat_ok svds] /\
  let psi := psi_api (0 : rat) 1 +%R *%R (fun x y => x - y) of_rel qr sv rsvd eps argsort normal svds argpart 1 (Zpos 1) cfg in
  exists x y z u u',
  [/\ forall s0, train psi s0 initial = Ok x, update psi x (inl chunk) = Ok y, forall s0, train psi s0 (initial ++ chunk)%list = Ok z,
      get_u psi y = Ok u /\ get_u psi z = Ok u' & u <> u'].
Proof. exact: l_psi. Qed.
Print Assumptions psi_forgets_refuted.

(** The retrained SVD over two groups, and over the second with the first in the initial table:
    the series of the second run are the tails of those of the first. *)
Example svd_tail_case : svds_mat_ok g_svds /\
  (exists dyn, g_run 2 g_data [:: g_c1; g_c2] = Ok dyn /\ d_hr dyn = [:: q0; q1] /\ d_mrr dyn = [:: q0; qhalf] /\ d_wji dyn = [:: Qmake (Zpos 6) 6]) /\
  (exists dyn, g_run 2 (g_data ++ g_c1) [:: g_c2] = Ok dyn /\ d_hr dyn = [:: q1] /\ d_mrr dyn = [:: qhalf] /\ d_wji dyn = [::]).
Proof. split; [exact: g_svds_contract|split; [exact: g_result|exact: l_tail]]. Qed.
