(** Model of source/experiments/hyperparameters_search.py (early stopping, grids of
    scores, choice of parameters) and source/random_grid.py. *)
From Coq Require Import ZArith QArith List Bool.
From Verif Require Import Prelude.
Import ListNotations.
Open Scope Z_scope.

(** Attributes of the exit callback (source/experiments/hyperparameters_search.py:160-162);
    scores are exact rationals. *)
Record cb_state := mkCb { metric_list : list Q; max_metric : Q; n_iter : Z }.
Definition cb_init : cb_state := mkCb [] 0 1.

(** source/experiments/hyperparameters_search.py:150-159: the callback for a score;
    returns whether to stop. *)
Definition cb_step (max_n_iter_relax : Z) (st : cb_state) (score : Q) : cb_state * bool :=
  if Qle_bool score (max_metric st) && (max_n_iter_relax <? n_iter st) then (st, true)
  else
    let st' :=
      if negb (Qle_bool score (max_metric st)) then mkCb (metric_list st) score 1
      else mkCb (metric_list st) (max_metric st) (n_iter st + 1) in
    (mkCb (metric_list st' ++ [score]) (max_metric st') (n_iter st'), false).

(** source/rp_hooi.py:257-261 seen from the callback: it is called after every sweep
    until it asks to stop; [scores] are the scores of the sweeps. *)
Fixpoint cb_run (max_n_iter_relax : Z) (st : cb_state) (scores : list Q) : cb_state * bool :=
  match scores with
  | [] => (st, false)
  | s :: scores' =>
    let '(st', stop) := cb_step max_n_iter_relax st s in
    if stop then (st', true) else cb_run max_n_iter_relax st' scores'
  end.

(** source/experiments/hyperparameters_search.py:165-192 [get_hparams_metric_grid_tdrec];
    [train cfg] stands for training with the configuration: the scores of its sweeps, or
    an exception.  The row order is that of [list(grid)] of a set, here an argument. *)
Section Grid.
  Context {C : Type}.
  Variable train : C -> res (list Q).
  Fixpoint tdrec_loop (max_n_iter_relax : Z) (grid : list C) (metrics : list Q) (params : list (C * Z))
    : res (list Q * list (C * Z)) :=
    match grid with
    | [] => Ok (metrics, params)
    | cfg :: grid' =>
      do scores <- train cfg;
      let '(st, _) := cb_run max_n_iter_relax cb_init scores in
      tdrec_loop max_n_iter_relax grid' (metrics ++ metric_list st)
        (params ++ map (fun j => (cfg, Z.of_nat j)) (seq 1 (length (metric_list st))))
    end.
  (** Assigning a column of another length raises ValueError. *)
  Definition metric_grid_tdrec (max_n_iter_relax : Z) (grid : list C) : res (list (C * Z * Q)) :=
    do '(metrics, params) <- tdrec_loop max_n_iter_relax grid [] [];
    if Nat.eqb (length metrics) (length params) then Ok (combine params metrics) else Err ValueError.

  (** source/experiments/hyperparameters_search.py:44-67 [get_hparams_metric_grid_svd]. *)
  Variable evaluate : C -> res Q.
  Definition metric_grid_svd (grid : list C) : res (list (C * Q)) :=
    mapM (fun cfg => do q <- evaluate cfg; Ok (cfg, q)) grid.
End Grid.

(** [Series.max()] of a non-empty column. *)
Definition qmax (l : list Q) : Q :=
  match l with [] => 0%Q | x :: l' => fold_left (fun m y => if Qle_bool y m then m else y) l' x end.

(** [df.iloc[df[col].argmin()]]: the first row with the smallest key.  The column of an
    empty selection has no argmin; for the rank column (of objects) pandas raises
    TypeError. *)
Fixpoint first_min {A} (key : A -> Z) (best : A) (l : list A) : A :=
  match l with
  | [] => best
  | x :: l' => first_min key (if key x <? key best then x else best) l'
  end.
Definition argmin_row {A} (key : A -> Z) (l : list A) : res A :=
  match l with [] => Err TypeError | x :: l' => Ok (first_min key x l') end.

(** Data set names (source/experiments/hyperparameters_search.py:24-27); others make
    [import_config] raise (29-40). *)
Inductive dataset := ML20M | AMZ_B | AMZ_G | STEAM | OTHER.

(** source/experiments/hyperparameters_search.py:110-130 [get_optimal_svd_rank]; rows
    (rank, metric), no missing metrics. *)
Definition get_optimal_svd_rank (ds : dataset) (table : list (Z * Q)) : res Z :=
  match ds with
  | OTHER => Err RuntimeError
  | _ =>
    let mask := filter (fun r => Qle_bool (qmax (map snd table)) (snd r)) table in
    do r <- argmin_row fst mask; Ok (fst r)
  end.

(** A row of tdrec.csv. *)
Record trial := mkTrial { t_rank : Z * Z * Z; t_att : Q; t_iter : Z; t_metric : Q }.
(** [np.prod(rank)]. *)
Definition volume (t : trial) : Z := let '(a, b, c) := t_rank t in a * b * c.

(** [sort_values(ascending=False).unique()]. *)
Fixpoint qunique (l : list Q) : list Q :=
  match l with
  | [] => []
  | x :: r => x :: filter (fun y => negb (Qeq_bool y x)) (qunique r)
  end.
Definition distinct_desc (l : list Q) : list Q := qunique (sort_stable (fun x y => Qle_bool y x) l).

(** source/experiments/hyperparameters_search.py:241-279 [get_optimal_tdrec_params]. *)
Definition get_optimal_tdrec_params (ds : dataset) (table : list trial) : res (Z * Z * Z * Q * Z) :=
  let params := filter (fun t => t_iter t <=? 5) table in
  let metrics := map t_metric params in
  do mask <-
    match ds with
    | OTHER => Err RuntimeError
    | ML20M => Ok (filter (fun t => Qle_bool (qmax metrics) (t_metric t) && negb (Qeq_bool (t_att t) 0)) params)
    | AMZ_B | STEAM => Ok (filter (fun t => Qle_bool (qmax metrics) (t_metric t)) params)
    | AMZ_G =>
      match nth_error (distinct_desc metrics) 1 with
      | None => Err IndexError
      | Some second => Ok (filter (fun t => Qle_bool second (t_metric t)) params)
      end
    end;
  do t <- argmin_row volume mask;
  Ok (t_rank t, t_att t, t_iter t).

(** source/random_grid.py.  A configuration is a tuple of values; sets are lists without
    repetition. *)
Definition config := list Z.
Fixpoint config_eqb (c d : config) : bool :=
  match c, d with
  | [], [] => true
  | x :: c', y :: d' => (x =? y) && config_eqb c' d'
  | _, _ => false
  end.
Definition set_add (c : config) (s : list config) : list config :=
  if existsb (config_eqb c) s then s else s ++ [c].
Definition to_set (l : list config) : list config := fold_left (fun s c => set_add c s) l [].

(** source/random_grid.py:59-72: the loop; [draws] are the configurations that [choice]
    will draw, [Err OutOfFuel] means that they did not suffice. *)
Fixpoint grid_loop (n : Z) (skip_config : config -> bool) (draws grid skipped : list config) : res (list config) :=
  if Z.of_nat (length grid) <? n - Z.of_nat (length skipped) then
    match draws with
    | [] => Err OutOfFuel
    | c :: draws' =>
      if skip_config c then grid_loop n skip_config draws' grid (set_add c skipped)
      else grid_loop n skip_config draws' (set_add c grid) skipped
    end
  else Ok grid.

(** source/random_grid.py:12-75 [random_grid] for an integer [n]; no parameters at all
    make the unpacking of [zip] raise ValueError. *)
Definition random_grid (params : list (Z * list Z)) (n : Z) (grid_cache : list config)
           (skip_config : config -> bool) (draws : list config) : res (list config * list Z) :=
  if n <? 0 then Err ValueError
  else
    match params with
    | [] => Err ValueError
    | _ =>
      let values := map snd params in
      let max_n := fold_left (fun p v => p * Z.of_nat (length v)) values 1 in
      let n := Z.min (if 0 <? n then n else max_n) max_n in
      do grid <- grid_loop n skip_config draws (to_set grid_cache) [];
      Ok (grid, map fst params)
    end.

(** [itertools.product]. *)
Fixpoint product (values : list (list Z)) : list config :=
  match values with
  | [] => [[]]
  | v :: values' => flat_map (fun x => map (cons x) (product values')) v
  end.
(** source/random_grid.py:78-100 [full_grid]. *)
Definition full_grid (params : list (Z * list Z)) : res (list config * list Z) :=
  match params with
  | [] => Err ValueError
  | _ => Ok (to_set (product (map snd params)), map fst params)
  end.
