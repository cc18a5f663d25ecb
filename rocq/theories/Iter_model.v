(** Model of full_dynamical_experiment for every integer as the number of iterations. *)
From Coq Require Import ZArith List Bool.
From Verif Require Import Prelude DataPrep_model History_model Tirec_model Tables_model Stream_model Tensor_model Matrix_model LinAlg_model Dynamic_model Pipe_model.
Import ListNotations.
Open Scope Z_scope.

(** Python's l[:n]: a negative [n] counts from the end. *)
Definition slice_to {A} (n : Z) (l : list A) : list A :=
  if n <? 0 then firstn (length l - Z.to_nat (- n)) l else firstn (Z.to_nat n) l.

(** source/experiments/prepare_data.py:51-62 [get_users_stability], as in [Stream_model] except
    for the slice of line 57. *)
Definition stability_slice (sort_counts : list (Z * Z) -> list (Z * Z))
    (initial_users : list Z) (left : list (Z * Z)) (hm_unique_days : Z) : list Z :=
  let days := slice_to hm_unique_days (sort_stable Z.leb (unique (map snd left))) in
  let masked := filter (fun r => memZ (snd r) days && memZ (fst r) (unique initial_users)) left in
  let counts := map (fun g => (fst g, Z.of_nat (length (unique (map snd (snd g)))))) (groupby fst masked) in
  map fst (lastn 50 (sort_counts counts)).

Section Iterations.
  Context {S D A V T : Type} (zero : A) (sub : A -> A -> A).
  Variable norm : mat A -> V.
  Variable div : V -> V -> V.
  Variable minus_one : V.
  Variable clock : nat -> T.
  Variable m : api S D A.
  Variable grow : D -> list row -> res D.
  Variable chunk_mode : bool.
  Variable entry : list row -> res D.
  Variable users_of : D -> list Z.
  Variable sort_days : list trow -> list trow.
  Variable sort_counts : list (Z * Z) -> list (Z * Z).

  (** source/experiments/dynamical_experiment.py:230-232: the users of the stability test. *)
  Definition test_users_for (d : D) (left : list (trow * Z)) (hm : Z) : list Z :=
    stability_slice sort_counts (users_of d) (map (fun x => (tb_user (fst x), snd x)) left) hm.

  (** source/experiments/dynamical_experiment.py:176-248 [full_dynamical_experiment], up to
      writing the file, as in [Pipe_model] but for any integer config['how_many_iterations']. *)
  Definition experiment_for (data : list trow) (cut : Z) (hm_min : option Z) (how_many_iterations : Z) (st0 : S)
    : res (dynamics T V) :=
    do '(initial, stream, left_data) <- prepare_data_for_experiment tb_index tb_day sort_days data cut hm_min;
    do d <- entry (map content initial);
    let test_users := test_users_for d left_data how_many_iterations in
    dynamical_experiment zero sub norm div minus_one clock m grow test_users chunk_mode how_many_iterations st0 d
      (map (fun g => map content (snd g)) stream).
End Iterations.
