(** Property C85: the search for the rank of the SVD, and the experiments with that rank. *)
From Coq Require Import ZArith QArith List Permutation.
From Verif Require Import Prelude DataPrep_model DataPrep_spec Eval_spec Recommend_model Recommend_spec Psi_model Psi_spec
  Tables_model Stream_model Stream_spec Search_model Tensor_model Matrix_model Attention_model LinAlg_model Num_model
  Dynamic_model Dynamic_spec Full_spec Full_model Pipe_model Pipe_spec Hps_model Hps_spec.
Set Warnings "-notation-overridden".
From mathcomp Require Import all_ssreflect all_algebra.
From Verif Require Import LinAlg_spec Upd_spec Exact_spec Num_spec.
From Verif Require LinAlg_wit LinAlg_tables Upd_wit Hps_svd Hps_pipe Full_main Full_num Full_wit Num_wit Exact_wit Pipe_wit Hps_wit.
Set Implicit Arguments.
Unset Strict Implicit.
Unset Printing Implicit Defensive.
Import GRing.Theory Num.Theory.
Local Open Scope ring_scope.

(** C85.  A search that gets through has one row for each different rank, whatever the order of
    the set; the initial rows are parted by their days, and each row holds the HR on the later
    part of a model trained on the earlier part, which recommends its best unseen items.  It
    gets through only if every rank is below the numbers of users and items of the earlier part
    and the later part can be tested; otherwise only scipy can stop it. *)
Theorem svd_search_outcome :
  forall (R : realFieldType) (of_rel : Z -> R) (svds : mat R -> nat -> res (mat R * list R * mat R)) (argpart : nat -> list R -> nat -> list nat),
  svds_mat_ok svds -> argpartition_contract (fun x y : R => x <= y) argpart ->
  forall (k : nat), Peano.le 1 k ->
  forall (sort_days : list trow -> list trow) (order : list config -> list config), (forall l, Permutation (order l) l) ->
  forall (data : list trow) (cut : Z) (q : Q) (ranks : list Z),
  let initial := given_rows data cut in
  match hyperparameters_search_svd 0 +%R *%R of_rel svds argpart k sort_days order data cut q ranks with
  | Ok table => Qle (Qmake Z0 1) q /\ Qle q (Qmake (Zpos 1) 1) /\ Permutation (List.map fst table) (List.nodup Z.eq_dec ranks) /\
      exists train valid, parted tb_day q initial train valid /\
        let rows := List.map content train in let tests := List.map content valid in
        forall rank h, List.In (rank, h) table -> trainable rank rows /\ testable k [::] rows tests /\
          exists x, num_train 0 +%R of_rel svds rank rows = Ok x /\
            hit_report k (best (fun x y : R => x <= y) (num_rec 0 +%R *%R x) rows) rows tests h
  | Err e => (~ (Qle (Qmake Z0 1) q /\ Qle q (Qmake (Zpos 1) 1)) /\ e = ValueError) \/
      exists train valid, parted tb_day q initial train valid /\
        ((forall rank, List.In rank ranks -> trainable rank (List.map content train)) /\
         (ranks <> [::] -> testable k [::] (List.map content train) (List.map content valid)) ->
         exists x rank, List.In rank ranks /\ svds x (Z.to_nat rank) = Err e)
  end.
Proof.
  move=> R of_rel svds argpart SO AP k K1 sd order Or data cut q ranks initial.
  exact: (@Hps_svd.search_outcome R of_rel svds argpart SO AP k K1 sd order Or data cut q ranks).
Qed.
Print Assumptions svd_search_outcome.

(** Two ranks, one of them given twice: HR 0 with rank 2 and 1 with rank 1.  A row of a user
    nobody knows as the only validation row stops the search. *)
Example svd_search_case :
  svds_mat_ok Hps_wit.h_svds /\ argpartition_contract (fun x y : rat => x <= y) Full_wit.f_argpart /\
  (forall l, Permutation (Hps_wit.h_order l) l) /\
  Hps_wit.h_search Hps_wit.h_data (Zpos 6) [:: Zpos 1; Zpos 2; Zpos 1] = Ok [:: (Zpos 2, Full_wit.q0); (Zpos 1, Full_wit.q1)] /\
  Hps_wit.h_search Hps_wit.h_unknown (Zpos 6) [:: Zpos 1] = Err ZeroDivisionError.
Proof.
  split; [exact: Hps_wit.h_svds_contract|]. split; [exact: Full_wit.f_argpart_ok|]. split; [exact: Hps_wit.h_orders|].
  split; [exact: Hps_wit.h_found|exact: Hps_wit.h_nobody].
Qed.

(** C85.  The rank taken from the search is one of those given; no other reached a higher HR and
    the smaller ones a lower HR; the models can be trained with it on all initial rows. *)
Theorem svd_search_choice :
  forall (R : realFieldType) (of_rel : Z -> R) (svds : mat R -> nat -> res (mat R * list R * mat R)) (argpart : nat -> list R -> nat -> list nat),
  svds_mat_ok svds -> argpartition_contract (fun x y : R => x <= y) argpart ->
  forall (k : nat), Peano.le 1 k ->
  forall (sort_days : list trow -> list trow) (order : list config -> list config), (forall l, Permutation (order l) l) ->
  forall (data : list trow) (cut : Z) (q : Q) (ranks : list Z) (table : list (Z * Q)) (ds : dataset),
  hyperparameters_search_svd 0 +%R *%R of_rel svds argpart k sort_days order data cut q ranks = Ok table -> ds <> OTHER ->
  (ranks <> [::] -> exists rank, get_optimal_svd_rank ds table = Ok rank) /\
  forall rank, get_optimal_svd_rank ds table = Ok rank ->
    List.In rank ranks /\ trainable rank (List.map content (given_rows data cut)) /\
    exists h, List.In (rank, h) table /\ (forall r' h', List.In (r', h') table -> Qle h' h /\ (Z.lt r' rank -> Qlt h' h)).
Proof.
  move=> R of_rel svds argpart SO AP k K1 sd order Or data cut q ranks table ds.
  exact: (@Hps_svd.chosen_main R of_rel svds argpart SO AP k K1 sd order Or data cut q ranks table ds).
Qed.
Print Assumptions svd_search_choice.

Example svd_search_choice_case : get_optimal_svd_rank STEAM [:: (Zpos 2, Full_wit.q0); (Zpos 1, Full_wit.q1)] = Ok (Zpos 1).
Proof. exact: Hps_wit.h_chosen. Qed.

(** C85.  Rows of the stream never influence the search. *)
Theorem svd_search_ignores_stream :
  forall (R : realFieldType) (of_rel : Z -> R) (svds : mat R -> nat -> res (mat R * list R * mat R)) (argpart : nat -> list R -> nat -> list nat)
         (k : nat) (sort_days : list trow -> list trow) (order : list config -> list config)
         (data data' : list trow) (cut : Z) (q : Q) (ranks : list Z),
  given_rows data cut = given_rows data' cut ->
  hyperparameters_search_svd 0 +%R *%R of_rel svds argpart k sort_days order data cut q ranks =
  hyperparameters_search_svd 0 +%R *%R of_rel svds argpart k sort_days order data' cut q ranks.
Proof.
  move=> R of_rel svds argpart k sd order data data' cut q ranks.
  exact: (@Hps_svd.search_early R of_rel svds argpart k sd order data data' cut q ranks).
Qed.
Print Assumptions svd_search_ignores_stream.

Example svd_search_ignores_stream_case :
  given_rows Hps_wit.h_data (Zpos 6) = given_rows (List.firstn 6 Hps_wit.h_data) (Zpos 6) /\ Hps_wit.h_data <> List.firstn 6 Hps_wit.h_data.
Proof. split; [vm_compute; reflexivity|]. by move/(f_equal (@length _)). Qed.

(** C85.  The experiment that retrains the SVD, with the rank taken from the search: it gets
    through just when every step can be tested; that the rank fits need not be asked. *)
Theorem svd_tuned_pipeline :
  forall (R : realFieldType) (of_rel : Z -> R) (svds : mat R -> nat -> res (mat R * list R * mat R)) (argpart : nat -> list R -> nat -> list nat),
  svds_mat_ok svds -> argpartition_contract (fun x y : R => x <= y) argpart ->
  forall (k : nat), Peano.le 1 k ->
  forall (sort_days : list trow -> list trow) (sort_counts : list (Z * Z) -> list (Z * Z)) (order : list config -> list config),
  sorts_by tb_day sort_days -> sorts_by snd sort_counts -> (forall l, Permutation (order l) l) ->
  forall (data : list trow) (cut : Z) (q : Q) (ranks : list Z) (table : list (Z * Q)) (ds : dataset) (rank : Z),
  hyperparameters_search_svd 0 +%R *%R of_rel svds argpart k sort_days order data cut q ranks = Ok table -> ds <> OTHER ->
  get_optimal_svd_rank ds table = Ok rank ->
  forall (V T : Type) (norm : mat R -> V) (div : V -> V -> V) (minus_one : V) (clock : nat -> T) (st0 : @num_state R)
         (hm_min : option Z) (how_many : Z), Z.lt 0 how_many ->
  exists stream left, prepare_data_for_experiment tb_index tb_day sort_days data cut hm_min = Ok (given_rows data cut, stream, left) /\
  let rows := List.map content (given_rows data cut) in
  let test := stability_users users_2d sort_counts rows left how_many in
  let chunks := List.map (fun g => List.map content g.2) stream in
  let possible := served k (fun _ _ => True) (fun c => c) test rows chunks (n_steps how_many (length stream)) in
  match full_dynamical_experiment 0 (fun x y => x - y) norm div minus_one clock (svd_api 0 +%R *%R of_rel svds argpart k rank) grow_2d false
          entry_2d users_2d sort_days sort_counts data cut hm_min how_many st0 with
  | Ok _ => possible
  | Err e => possible -> exists x, svds x (Z.to_nat rank) = Err e
  end.
Proof.
  move=> R of_rel svds argpart SO AP k K1 sd sc order SD SC Or data cut q ranks table ds rank E O C V T norm div mo clock st0 hmin hm HM.
  exact: (@Hps_pipe.tuned R of_rel svds argpart SO AP k K1 sd sc order SD SC Or data cut q ranks table ds rank E O C V T norm div mo clock st0 hmin hm HM
    (svd_api 0 +%R *%R of_rel svds argpart k rank) false (fun _ _ => True) (fun e => exists x, svds x (Z.to_nat rank) = Err e)
    (fun test ini stream => @Full_main.svd_outcome R of_rel svds argpart SO AP k rank K1 V T norm div mo clock test hm st0 ini stream)).
Qed.
Print Assumptions svd_tuned_pipeline.

Example svd_tuned_case : exists dyn, Hps_wit.h_run = Ok dyn /\ d_hr dyn = [:: Full_wit.q0].
Proof. case: Hps_wit.h_result => dyn [E [H _]]. exists dyn. split; [exact: E|exact: H]. Qed.

(** C85.  The experiment with PSI and that rank: every update must also take its group. *)
Theorem psi_tuned_pipeline :
  forall (R : realFieldType) (of_rel : Z -> R) (qr : mat R -> res (mat R * mat R)) (svd : mat R -> res (mat R * list R * mat R))
         (rsvd : mat R -> nat -> res (mat R * list R * mat R)) (exceeds_eps : R -> bool) (argsort : list R -> list nat)
         (normal : nat -> nat -> mat R) (svds : mat R -> nat -> res (mat R * list R * mat R)) (argpart : nat -> list R -> nat -> list nat),
  qr_ok qr -> svd_ok svd -> truncated_ok rsvd -> argsort_ok (fun x y : R => x <= y) argsort -> randn_ok normal ->
  svds_mat_ok svds -> argpartition_contract (fun x y : R => x <= y) argpart ->
  forall (k : nat) (cfg : psi_cfg), Peano.le 1 k ->
  forall (sort_days : list trow -> list trow) (sort_counts : list (Z * Z) -> list (Z * Z)) (order : list config -> list config),
  sorts_by tb_day sort_days -> sorts_by snd sort_counts -> (forall l, Permutation (order l) l) ->
  forall (data : list trow) (cut : Z) (q : Q) (ranks : list Z) (table : list (Z * Q)) (ds : dataset) (rank : Z),
  hyperparameters_search_svd 0 +%R *%R of_rel svds argpart k sort_days order data cut q ranks = Ok table -> ds <> OTHER ->
  get_optimal_svd_rank ds table = Ok rank ->
  forall (V T : Type) (norm : mat R -> V) (div : V -> V -> V) (minus_one : V) (clock : nat -> T) (st0 : @num_state R)
         (hm_min : option Z) (how_many : Z), Z.lt 0 how_many ->
  exists stream left, prepare_data_for_experiment tb_index tb_day sort_days data cut hm_min = Ok (given_rows data cut, stream, left) /\
  let rows := List.map content (given_rows data cut) in
  let test := stability_users users_2d sort_counts rows left how_many in
  let chunks := List.map (fun g => List.map content g.2) stream in
  let possible := served k (psi_fits cfg) (fun c => c) test rows chunks (n_steps how_many (length stream)) in
  match full_dynamical_experiment 0 (fun x y => x - y) norm div minus_one clock
          (psi_api 0 1 +%R *%R (fun x y => x - y) of_rel qr svd rsvd exceeds_eps argsort normal svds argpart k rank cfg) grow_2d true
          entry_2d users_2d sort_days sort_counts data cut hm_min how_many st0 with
  | Ok _ => possible
  | Err e => possible -> (exists x, svds x (Z.to_nat rank) = Err e) \/ routine_raises qr svd rsvd (Z.to_nat rank) e
  end.
Proof.
  move=> R of_rel qr svd rsvd ee argsort normal svds argpart QR SV RS AS RN SO AP k cfg K1 sd sc order SD SC Or data cut q ranks table ds rank E O C V T norm div mo clock st0 hmin hm HM.
  apply: (@Hps_pipe.tuned R of_rel svds argpart SO AP k K1 sd sc order SD SC Or data cut q ranks table ds rank E O C V T norm div mo clock st0 hmin hm HM
    (psi_api 0 1 +%R *%R (fun x y => x - y) of_rel qr svd rsvd ee argsort normal svds argpart k rank cfg) true (psi_fits cfg)
    (fun e => (exists x, svds x (Z.to_nat rank) = Err e) \/ routine_raises qr svd rsvd (Z.to_nat rank) e)).
  move=> test ini stream. exact: Full_num.psi_outcome.
Qed.
Print Assumptions psi_tuned_pipeline.

Example psi_tuned_case :
  [/\ qr_ok Full_wit.f_qr, svd_ok LinAlg_wit.demo_svd, truncated_ok Num_wit.w_rsvd, argsort_ok (fun x y : rat => x <= y) LinAlg_tables.rat_argsort & randn_ok Upd_wit.r_randn] /\
  exists table, Hps_wit.h_search Hps_wit.h_data (Zpos 6) [:: Zpos 1; Zpos 2] = Ok table /\ get_optimal_svd_rank ML20M table = Ok (Zpos 1).
Proof.
  split; [exact: Full_wit.f_contracts|]. exists [:: (Zpos 2, Full_wit.q0); (Zpos 1, Full_wit.q1)].
  split; [vm_compute; reflexivity|vm_compute; reflexivity].
Qed.

(** C85.  One rank that is too large loses the results of all the others. *)
Theorem svd_search_keeps_good_ranks_refuted :
  exists (data : list trow) (cut : Z) (ranks : list Z) (bad : Z) (table : list (Z * Q)),
    Hps_wit.h_search data cut ranks = Ok table /\ table <> [::] /\ Hps_wit.h_search data cut (ranks ++ [:: bad]) = Err ValueError.
Proof.
  exists Hps_wit.h_data, (Zpos 6), [:: Zpos 1], (Zpos 3), [:: (Zpos 1, Full_wit.q1)].
  split; [vm_compute; reflexivity|]. split; [discriminate|exact: Hps_wit.h_bad_rank].
Qed.
Print Assumptions svd_search_keeps_good_ranks_refuted.
