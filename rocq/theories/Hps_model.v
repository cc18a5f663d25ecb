(** Model of the searches for hyperparameters, from the prepared table to the saved rows. *)
From Coq Require Import ZArith QArith List Bool.
From Verif Require Import Prelude DataPrep_model Recommend_model Psi_model Eval_model Tables_model Stream_model Search_model Tensor_model Matrix_model LinAlg_model Num_model Full_model Pipe_model.
Import ListNotations.
Open Scope Z_scope.

(** source/experiments/hyperparameters_search.py:62-64 (and 147-149): HR of a model with
    mappings [ms] on the validation rows; [recommend] gives the lists of the users. *)
Definition validate (ms : mappings) (recommend : list Z -> res (list (list Z))) (valid : list row) : res Q :=
  let '(user_to_recommend, test_items) := get_users_to_recommend_test_items valid ms in
  do rec_array <- recommend user_to_recommend;
  hr rec_array test_items.

Section Svd.
  Context {A : Type} (zero : A) (add mul : A -> A -> A).
  Variable of_rel : Z -> A.
  Variable svds : mat A -> nat -> res (mat A * list A * mat A).
  Variable argpart : nat -> list A -> nat -> list nat.
  (** config['topk']. *)
  Variable k : nat.
  Variable sort_days : list trow -> list trow.
  (** External: the order in which [list] lists a set. *)
  Variable order : list config -> list config.

  (** source/experiments/hyperparameters_search.py:58-64: the model of one configuration is
      trained and evaluated. *)
  Definition svd_validate (train valid : list row) (rank : Z) : res Q :=
    do x <- num_train zero add of_rel svds rank train;
    validate (ps_maps (nm_book x)) (fun users => svd_recommend zero add mul argpart k x users false) valid.

  (** source/experiments/hyperparameters_search.py:69-108 [hyperparameters_search_svd] up to
      writing the file, for config['optional_config_svd'] = {'rank': ranks}; [cut] is
      int(rows * init_ratio) and [q] config['quantile_train'].  Rows (rank, HR). *)
  Definition hyperparameters_search_svd (data : list trow) (cut : Z) (q : Q) (ranks : list Z) : res (list (Z * Q)) :=
    do '(initial, _, _) <- prepare_data_for_experiment tb_index tb_day sort_days data cut None;
    do '(train, valid) <- train_test_split tb_day initial q;
    do '(grid, _) <- full_grid [(0, ranks)];
    metric_grid_svd (svd_validate (map content train) (map content valid)) (map (hd 0) (order grid)).
End Svd.
