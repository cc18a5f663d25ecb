(** Model of full_dynamical_experiment: from the prepared table to the reported series. *)
From Coq Require Import ZArith List Bool.
From Verif Require Import Prelude DataPrep_model History_model Tirec_model Tables_model Stream_model Tensor_model Matrix_model LinAlg_model Dynamic_model.
Import ListNotations.
Open Scope Z_scope.

(** The columns of the prepared table the models read. *)
Definition content (r : trow) : row := mkRow (tb_user r) (tb_item r) (tb_time r) (tb_rel r).

(** source/experiments/dynamical_experiment.py:220-228: what becomes of the initial table, for
    data_dim = '2d' and '3d' (another value raises RuntimeError), and its user column. *)
Definition entry_2d (initial : list row) : res (list row) := Ok initial.
Definition entry_3d (max_len_user_history : nat) (initial : list row) : res (list prow) :=
  get_df_with_cropped_pos_column initial max_len_user_history true.
Definition users_2d (d : list row) : list Z := map r_user d.
Definition users_3d (d : list prow) : list Z := map r_user (map p_row d).

Section Pipeline.
  Context {S D A V T : Type} (zero : A) (sub : A -> A -> A).
  Variable norm : mat A -> V.
  Variable div : V -> V -> V.
  Variable minus_one : V.
  Variable clock : nat -> T.
  Variable m : api S D A.
  Variable grow : D -> list row -> res D.
  Variable chunk_mode : bool.
  Variable entry : list row -> res D.
  Variable users_of : D -> list Z.
  Variable sort_days : list trow -> list trow.
  Variable sort_counts : list (Z * Z) -> list (Z * Z).

  (** source/experiments/prepare_data.py:51-62 on the tables of the experiment; [hm] is
      config['how_many_iterations'], not negative. *)
  Definition stability_users (d : D) (left : list (trow * Z)) (hm : Z) : list Z :=
    get_users_stability sort_counts (users_of d) (map (fun x => (tb_user (fst x), snd x)) left) (Z.to_nat hm).

  (** source/experiments/dynamical_experiment.py:176-248 [full_dynamical_experiment], up to
      writing the file.  [data] is the table in config['prepared_data_path'], [cut] is
      int(rows * init_ratio), [hm_min] config['hm_actions_min_stream']; the model and its ways
      of growing come from prepare_model.  A negative number of iterations, which would slice
      the days from the end, is not modelled. *)
  Definition full_dynamical_experiment (data : list trow) (cut : Z) (hm_min : option Z) (how_many_iterations : Z) (st0 : S)
    : res (dynamics T V) :=
    do '(initial, stream, left_data) <- prepare_data_for_experiment tb_index tb_day sort_days data cut hm_min;
    do d <- entry (map content initial);
    let test_users := stability_users d left_data how_many_iterations in
    dynamical_experiment zero sub norm div minus_one clock m grow test_users chunk_mode how_many_iterations st0 d
      (map (fun g => map content (snd g)) stream).
End Pipeline.
