(** Model of the search for the parameters of TDRec, from the prepared table to the saved rows. *)
From Coq Require Import ZArith QArith List Bool.
From Verif Require Import Prelude DataPrep_model History_model Recommend_model Tirec_model Tables_model Stream_model Search_model Tensor_model Matrix_model Attention_model
  LinAlg_model Hooi_model Training_model Nti_model Seqx_model Pipe_model Hps_model.
Import ListNotations.
Open Scope Z_scope.

Section Tdrec.
  Context {A : Type} (zero one : A) (add mul : A -> A -> A).
  Variable of_val : Z -> A.
  (** config['max_len_user_history'], which is also seq_len (configs/*/config.py:42). *)
  Variable L : nat.
  (** [decay f i] is 1 / i**f; External: [scipy.linalg.inv]. *)
  Variable decay : Q -> nat -> A.
  Variable inv : mat A -> res (mat A).
  Variable qr : mat A -> res (mat A * mat A).
  Variable rand : nat -> nat -> nat -> mat A.
  Variable rsvd : nat -> mat A -> nat -> res (mat A * list A * mat A).
  Context {N : Type} (norm : ten A -> N) (norm0 : N) (grew : N -> N -> bool).
  (** TDRec's n_iter (25 unless configured); force_n_iter is False in all configurations. *)
  Variable n_iter : nat.
  Variable argpart : nat -> list A -> nat -> list nat.
  (** config['topk']. *)
  Variable k : nat.
  Variable sort_days : list trow -> list trow.

  (** source/experiments/hyperparameters_search.py:144-149: HR of the model with the factors of
      a sweep; [td] is what train (source/models/tdrec.py:187-204) has set before. *)
  Definition sweep_score (td : train_data) (a ainv : mat A) (valid : list row) (fs : factors) (core : ten A) : res Q :=
    do '(aw, last) <- position_embeddings zero add mul a ainv (factor fs 2);
    let x := mkNti (td_mappings td) (td_history td) (td_seq td) fs core aw last in
    validate (nt_maps x) (fun users => nti_recommend zero add mul argpart k x users false) valid.

  (** source/experiments/hyperparameters_search.py:180-184: the model of one configuration
      (rank, att_f) is made and trained with the exit callback (max_n_iter_relax = 3); returns
      the callback's metric_list.  source/models/tdrec.py:147-155 and 185-219. *)
  Definition tdrec_metrics (train : list prow) (valid : list row) (cfg : coord * Q) : res (list Q) :=
    let '(rank, att_f) := cfg in
    do '(a, ainv) <- attention_pair zero one inv (Some (decay att_f)) L;
    do td <- tdrec_prepare train [] L;
    let '(s0, s1, s2) := td_shape td in
    let inds := map (fun c : triple => (Z.to_nat (t_user c), Z.to_nat (t_item c), Z.to_nat (t_pos c))) (td_inds td) in
    do '(fs, _, st) <- ga_satf zero add mul qr rand rsvd norm norm0 grew inds (map of_val (td_vals td))
                         (Z.to_nat s0, Z.to_nat s1, Z.to_nat s2) rank a n_iter
                         (Some (exit_callback (sweep_score td a ainv valid) 3)) None false cb_init;
    do _ <- position_embeddings zero add mul a ainv (factor fs 2);
    Ok (metric_list st).

  (** source/experiments/hyperparameters_search.py:175-192: the loop over list(grid). *)
  Fixpoint search_loop (train : list prow) (valid : list row) (grid : list (coord * Q)) (metrics : list Q) (params : list (coord * Q * Z))
    : res (list Q * list (coord * Q * Z)) :=
    match grid with
    | [] => Ok (metrics, params)
    | cfg :: grid' =>
      do ms <- tdrec_metrics train valid cfg;
      search_loop train valid grid' (metrics ++ ms) (params ++ map (fun j => (cfg, Z.of_nat j)) (seq 1 (length ms)))
    end.

  (** A row of the saved table. *)
  Definition saved (x : coord * Q * Z * Q) : trial :=
    let '((r0, r1, r2), att_f, j, metric) := x in mkTrial (Z.of_nat r0, Z.of_nat r1, Z.of_nat r2) att_f j metric.

  (** Assigning a column of another length raises ValueError (190-191). *)
  Definition metric_grid (train : list prow) (valid : list row) (grid : list (coord * Q)) : res (list trial) :=
    do '(metrics, params) <- search_loop train valid grid [] [];
    if Nat.eqb (length metrics) (length params) then Ok (map saved (combine params metrics)) else Err ValueError.

  (** source/experiments/hyperparameters_search.py:194-239 [hyperparameters_search_tdrec] up to
      writing the file; [grid] lists the configurations (full_grid, C50) in the order in which
      Python lists the set.  The column 'day' is that of the prepared table, the timestamp
      rounded to a day (Tables_model.table_of). *)
  Definition hyperparameters_search_tdrec (data : list trow) (cut : Z) (q : Q) (grid : list (coord * Q)) : res (list trial) :=
    do '(initial, _, _) <- prepare_data_for_experiment tb_index tb_day sort_days data cut None;
    do cropped <- get_df_with_cropped_pos_column (map content initial) L true;
    do '(train, valid) <- train_test_split (fun p : prow => round_day (r_ts (p_row p))) cropped q;
    metric_grid train (map p_row valid) grid.
End Tdrec.
