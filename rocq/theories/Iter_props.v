(** Property C106: the number of iterations. *)
From Coq Require Import ZArith QArith List.
From Verif Require Import Prelude DataPrep_model Recommend_spec History_model Tirec_model Tables_model Stream_model Stream_spec Tensor_model Matrix_model LinAlg_model Num_model
  Dynamic_model Dynamic_spec Full_spec Full_model Pipe_model Pipe_spec Prow_spec Iter_model Iter_spec.
Set Warnings "-notation-overridden".
From mathcomp Require Import all_ssreflect all_algebra.
From Verif Require Import LinAlg_spec Num_spec.
From Verif Require Pipe_main Iter_main Num_wit Full_wit Pipe_wit Iter_wit.
Set Implicit Arguments.
Unset Strict Implicit.
Unset Printing Implicit Defensive.
Import GRing.Theory Num.Theory.
Local Open Scope ring_scope.

(** C106.  For any integer as the number of iterations the experiment is the loop over the
    groups after the initial table; the number decides, apart from where the loop ends, the
    users of the stability test.  They return in the first so many groups; a negative number
    leaves out groups at the end. *)
Theorem any_number_of_iterations :
  forall (S D A V T : Type) (zero : A) (sub : A -> A -> A) (norm : mat A -> V) (div : V -> V -> V) (minus_one : V) (clock : nat -> T)
    (m : api S D A) (grow : D -> list irow -> res D) (chunk_mode : bool) (entry : list irow -> res D) (users_of : D -> list Z)
    (sort_days : list trow -> list trow) (sort_counts : list (Z * Z) -> list (Z * Z)),
  sorts_by tb_day sort_days -> sorts_by snd sort_counts ->
  (forall rows d, entry rows = Ok d -> forall u, List.In u (users_of d) <-> List.In u (List.map r_user rows)) ->
  forall (data : list trow) (cut : Z) (hm_min : option Z) (st0 : S),
  let run hm := experiment_for zero sub norm div minus_one clock m grow chunk_mode entry users_of sort_days sort_counts data cut hm_min hm st0 in
  exists initial stream left, prepare_data_for_experiment tb_index tb_day sort_days data cut hm_min = Ok (initial, stream, left) /\
  exists rows chunks, List.Forall2 model_row initial rows /\ List.Forall2 (List.Forall2 model_row) (List.map snd stream) chunks /\
  forall hm : Z,
  (Z.le 0 hm -> run hm = full_dynamical_experiment zero sub norm div minus_one clock m grow chunk_mode entry users_of sort_days sort_counts data cut hm_min hm st0) /\
  match entry rows with
  | Err e => run hm = Err e
  | Ok d => let test := test_users_for users_of sort_counts d left hm in
      run hm = dynamical_experiment zero sub norm div minus_one clock m grow test chunk_mode hm st0 d chunks /\
      (forall k, looked_at hm (length stream) k -> selected k initial (List.map snd stream) test)
  end.
Proof. exact @Iter_main.any_parts. Qed.
Print Assumptions any_number_of_iterations.

(** C106.  Runs over the same table that get through, whatever their numbers of iterations:
    each reports one HR per group it processes, and the shorter run is the longer one cut
    off, in HR, MRR, the norms and changes of the embeddings and the readings of the clock. *)
Theorem iterations_cut_series :
  forall (S D A V T : Type) (zero : A) (sub : A -> A -> A) (norm : mat A -> V) (div : V -> V -> V) (minus_one : V) (clock : nat -> T)
    (m : api S D A) (grow : D -> list irow -> res D) (chunk_mode : bool) (entry : list irow -> res D) (users_of : D -> list Z)
    (sort_days : list trow -> list trow) (sort_counts : list (Z * Z) -> list (Z * Z))
    (data : list trow) (cut : Z) (hm_min : option Z) (st0 : S) (hm hm' : Z) (dyn dyn' : dynamics T V)
    (initial : list trow) (stream : list (Z * list trow)) (left : list (trow * Z)) (k k' : nat),
  let run hm := experiment_for zero sub norm div minus_one clock m grow chunk_mode entry users_of sort_days sort_counts data cut hm_min hm st0 in
  prepare_data_for_experiment tb_index tb_day sort_days data cut hm_min = Ok (initial, stream, left) ->
  run hm = Ok dyn -> run hm' = Ok dyn' ->
  processed hm (length stream) k -> processed hm' (length stream) k' -> Peano.le k k' ->
  length (d_hr dyn) = k /\ length (d_hr dyn') = k' /\ cut_after k dyn dyn'.
Proof. exact @Iter_main.cut_main. Qed.
Print Assumptions iterations_cut_series.

(** C106.  If the two numbers choose the same test users, the shorter run gets through when the
    longer does, and its stability series is cut off as well. *)
Theorem iterations_cut_stability :
  forall (S D A V T : Type) (zero : A) (sub : A -> A -> A) (norm : mat A -> V) (div : V -> V -> V) (minus_one : V) (clock : nat -> T)
    (m : api S D A) (grow : D -> list irow -> res D) (chunk_mode : bool) (entry : list irow -> res D) (users_of : D -> list Z)
    (sort_days : list trow -> list trow) (sort_counts : list (Z * Z) -> list (Z * Z))
    (data : list trow) (cut : Z) (hm_min : option Z) (st0 : S) (hm hm' : Z) (dyn' : dynamics T V)
    (initial : list trow) (stream : list (Z * list trow)) (left : list (trow * Z)) (k k' : nat),
  let run hm := experiment_for zero sub norm div minus_one clock m grow chunk_mode entry users_of sort_days sort_counts data cut hm_min hm st0 in
  prepare_data_for_experiment tb_index tb_day sort_days data cut hm_min = Ok (initial, stream, left) ->
  (forall rows d, List.Forall2 model_row initial rows -> entry rows = Ok d ->
     test_users_for users_of sort_counts d left hm = test_users_for users_of sort_counts d left hm') ->
  run hm' = Ok dyn' ->
  processed hm (length stream) k -> processed hm' (length stream) k' -> Peano.le k k' ->
  exists dyn, run hm = Ok dyn /\ cut_after k dyn dyn' /\ d_wji dyn = List.firstn (Nat.sub k 1) (d_wji dyn').
Proof. exact @Iter_main.same_users_main. Qed.
Print Assumptions iterations_cut_stability.

(** Three groups.  Two iterations, and all groups with the users of all but the last: the same
    test user, so two iterations are the other run cut off. *)
Example iterations_case :
  Iter_wit.it_run (Zpos 2) = Pipe_wit.p_run 2 Iter_wit.it_data (Zpos 2) /\
  (exists initial stream left,
    prepare_data_for_experiment tb_index tb_day (Pipe_wit.p_sort tb_day) Iter_wit.it_data (Zpos 4) None = Ok (initial, stream, left) /\ length stream = 3%N /\
    processed (Zpos 2) (length stream) 2 /\ processed (Zneg 1) (length stream) 3 /\
    looked_at (Zpos 2) (length stream) 2 /\ looked_at (Zneg 1) (length stream) 2 /\ looked_at (Zneg 3) (length stream) 0 /\
    test_users_for users_2d (Pipe_wit.p_sort snd) (List.map content initial) left (Zpos 2) = [:: Zpos 2] /\
    test_users_for users_2d (Pipe_wit.p_sort snd) (List.map content initial) left (Zneg 1) = [:: Zpos 2] /\
    test_users_for users_2d (Pipe_wit.p_sort snd) (List.map content initial) left (Zpos 3) = [:: Zpos 1; Zpos 2]) /\
  (exists dyn, Iter_wit.it_run (Zpos 2) = Ok dyn /\ d_hr dyn = [:: Full_wit.q0; Full_wit.q1] /\ d_mrr dyn = [:: Full_wit.q0; Full_wit.qhalf] /\
     d_wji dyn = [:: Qmake (Zpos 6) 6]) /\
  (exists dyn, Iter_wit.it_run (Zneg 1) = Ok dyn /\ d_hr dyn = [:: Full_wit.q0; Full_wit.q1; Full_wit.q0] /\
     d_mrr dyn = [:: Full_wit.q0; Full_wit.qhalf; Full_wit.q0] /\ d_wji dyn = [:: Qmake (Zpos 6) 6; Qmake (Zpos 2) 10]).
Proof.
  split; [exact: Iter_main.any_full|]. split; [exact: Iter_wit.it_groups|]. split; [exact: Iter_wit.it_two|exact: Iter_wit.it_minus_one].
Qed.

(** C106, the bad side.  Otherwise the stability series is not cut off: between the first two
    groups it has another value for three iterations than for two. *)
Theorem iterations_cut_stability_refuted :
  svds_mat_ok Pipe_wit.p_svds /\ argpartition_contract (fun x y : rat => x <= y) Full_wit.f_argpart /\
  exists (data : list trow) (cut : Z) (how_many how_many' : Z) (k : nat),
  in_day_order data /\ Z.lt 0 how_many /\ Z.lt how_many how_many' /\
  let run hm := experiment_for (0 : rat) (fun x y => x - y) (fun _ => tt) (fun _ _ => tt) tt (fun _ => tt)
    (svd_api (0 : rat) +%R *%R Num_wit.o_rel Pipe_wit.p_svds Full_wit.f_argpart k (Zpos 1)) grow_2d false entry_2d users_2d
    (Pipe_wit.p_sort tb_day) (Pipe_wit.p_sort snd) data cut None hm Num_wit.w_none in
  exists dyn dyn' w w', run how_many = Ok dyn /\ run how_many' = Ok dyn' /\
    List.nth_error (d_wji dyn) 0 = Some w /\ List.nth_error (d_wji dyn') 0 = Some w' /\ ~ Qeq w w'.
Proof. split; [exact: Pipe_wit.p_svds_contract|]. split; [exact: Full_wit.f_argpart_ok|exact: Iter_wit.it_refuted]. Qed.
Print Assumptions iterations_cut_stability_refuted.

(** C106.  A number that leaves no group to choose test users from (0, or at least as far below
    0 as there are groups) stops every experiment of two groups or more, if the model gives no
    lists for no users. *)
Theorem no_group_to_choose_from_fails :
  forall (S D A V T : Type) (zero : A) (sub : A -> A -> A) (norm : mat A -> V) (div : V -> V -> V) (minus_one : V) (clock : nat -> T)
    (m : api S D A) (grow : D -> list irow -> res D) (chunk_mode : bool) (entry : list irow -> res D) (users_of : D -> list Z)
    (sort_days : list trow -> list trow) (sort_counts : list (Z * Z) -> list (Z * Z)),
  sorts_by tb_day sort_days -> sorts_by snd sort_counts ->
  (forall rows d, entry rows = Ok d -> forall u, List.In u (users_of d) <-> List.In u (List.map r_user rows)) ->
  forall (data : list trow) (cut : Z) (hm_min : option Z) (st0 : S) (hm : Z)
    (initial : list trow) (stream : list (Z * list trow)) (left : list (trow * Z)) (dyn : dynamics T V),
  prepare_data_for_experiment tb_index tb_day sort_days data cut hm_min = Ok (initial, stream, left) ->
  (forall s l, recommend m s [::] true = Ok l -> l = [::]) -> looked_at hm (length stream) 0 -> Peano.lt 1 (length stream) ->
  experiment_for zero sub norm div minus_one clock m grow chunk_mode entry users_of sort_days sort_counts data cut hm_min hm st0 <> Ok dyn.
Proof. exact @Iter_main.nobody_main. Qed.
Print Assumptions no_group_to_choose_from_fails.

(** Over the three groups: with -2 it goes through, with -3 and with 0 it does not. *)
Example no_group_case :
  (exists dyn, Iter_wit.it_run (Zneg 2) = Ok dyn /\ d_hr dyn = [:: Full_wit.q0; Full_wit.q1; Full_wit.q0] /\
     d_mrr dyn = [:: Full_wit.q0; Full_wit.qhalf; Full_wit.q0] /\ d_wji dyn = [:: Qmake (Zpos 6) 6; Qmake (Zpos 2) 10]) /\
  Iter_wit.it_run (Zneg 3) = Err ZeroDivisionError /\ Iter_wit.it_run Z0 = Err ZeroDivisionError /\
  looked_at (Zneg 3) 3 0 /\ looked_at Z0 3 0 /\
  (forall s l, recommend (Pipe_wit.p_svd 2) s [::] true = Ok l -> l = [::]).
Proof.
  split; [exact: Iter_wit.it_minus_two|]. split; [exact: (proj1 Iter_wit.it_nobody)|]. split; [exact: (proj2 Iter_wit.it_nobody)|].
  split; [exact: (proj1 Iter_wit.it_empty)|]. split; [exact: (proj2 Iter_wit.it_empty)|exact: Iter_wit.it_no_lists].
Qed.
