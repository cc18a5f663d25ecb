(** Property theorems for source/experiments/hyperparameters_search.py and
    source/random_grid.py: C48, C49, C51. *)
From Coq Require Import ZArith QArith List Bool.
From Verif Require Import Prelude Pcore_spec Search_model Search_spec.
From Verif Require Search_main Search_grid.
Import ListNotations.
Open Scope Z_scope.

(** C48.  The exit callback with patience [p] asks to stop exactly at the first score that,
    like the [p] scores before it, is no improvement; the recorded scores are those before
    it, or all if it never stops; the maximum is that of 0 and all scores seen. *)
Theorem exit_callback_stops_first :
  forall (p : nat) (scores : list Q),
  let '(st, stop) := cb_run (Z.of_nat p) cb_init scores in
  (stop = true /\ exists i, gives_up p scores i /\ (forall j, (j < i)%nat -> ~ gives_up p scores j) /\
     metric_list st = firstn i scores /\ best_score (firstn (S i) scores) (max_metric st)) \/
  (stop = false /\ (forall i, ~ gives_up p scores i) /\ metric_list st = scores /\ best_score scores (max_metric st)).
Proof. exact Search_main.cb_run_main. Qed.
Print Assumptions exit_callback_stops_first.

(** C48.  The table of scores of the search: for every configuration in order, one row for
    every recorded score, numbered from 1; no row is lost or attributed to another
    configuration. *)
Theorem metric_grid_tdrec_rows :
  forall (C : Type) (train : C -> res (list Q)) (scores : C -> list Q) (p : nat) (grid : list C),
  (forall cfg, In cfg grid -> train cfg = Ok (scores cfg)) ->
  exists stop : C -> nat,
    (forall cfg, In cfg grid -> recorded p (scores cfg) (stop cfg)) /\
    metric_grid_tdrec train (Z.of_nat p) grid = Ok (flat_map (fun cfg => config_rows cfg (scores cfg) (stop cfg)) grid).
Proof. exact @Search_main.tdrec_grid_main. Qed.
Print Assumptions metric_grid_tdrec_rows.

(** C49.  get_optimal_svd_rank returns the smallest of the ranks with the largest metric;
    an empty table raises. *)
Theorem optimal_svd_rank_smallest_best :
  forall ds (table : list (Z * Q)), ds <> OTHER ->
  (table <> [] -> exists r, get_optimal_svd_rank ds table = Ok (fst r) /\ In r table /\ is_max snd table r /\
     forall x, In x table -> is_max snd table x -> fst r <= fst x) /\
  (table = [] -> get_optimal_svd_rank ds table = Err TypeError).
Proof. exact Search_main.svd_rank_main. Qed.
Print Assumptions optimal_svd_rank_smallest_best.

(** C49.  get_optimal_tdrec_params returns the first of the smallest cores among the
    candidates with at most five iterations: those with the largest metric (amz_b, steam),
    these with a non-zero attention (ml_20m), or those not worse than the second best
    metric (amz_g).  It raises exactly when there is no candidate; for ml_20m this is the
    case when the largest metric is reached without attention only, for amz_g when all
    metrics are equal. *)
Theorem optimal_tdrec_params_rule :
  forall table : list trial,
  let early := filter (fun t => t_iter t <=? 5) table in
  let chosen ds P := exists t, get_optimal_tdrec_params ds table = Ok (t_rank t, t_att t, t_iter t) /\ picks volume early P t in
  (forall ds, ds = AMZ_B \/ ds = STEAM ->
     (early <> [] -> chosen ds (is_max t_metric early)) /\
     (early = [] -> get_optimal_tdrec_params ds table = Err TypeError)) /\
  (let P t := is_max t_metric early t /\ ~ (t_att t == 0)%Q in
   ((exists t, In t early /\ P t) -> chosen ML20M P) /\
   ((forall t, In t early -> ~ P t) -> get_optimal_tdrec_params ML20M table = Err TypeError)) /\
  ((forall v, is_second t_metric early v -> chosen AMZ_G (fun t => (v <= t_metric t)%Q)) /\
   ((forall x y, In x early -> In y early -> (t_metric x == t_metric y)%Q) ->
    get_optimal_tdrec_params AMZ_G table = Err IndexError)) /\
  get_optimal_tdrec_params OTHER table = Err RuntimeError.
Proof. exact Search_main.tdrec_params_main. Qed.
Print Assumptions optimal_tdrec_params_rule.

(** C51.  What random_grid returns, for every sequence of random choices: the cached and
    some not skipped configurations of the product, each once; together with the distinct
    skipped configurations met they are at least as many as requested, exactly as many
    unless the cache is larger, in which case the cache is returned. *)
Theorem random_grid_sound :
  forall params n cache skip draws grid names,
  (forall c, In c draws -> in_product (map snd params) c) ->
  random_grid params n cache skip draws = Ok (grid, names) ->
  names = map fst params /\ NoDup grid /\
  (forall c, In c cache -> In c grid) /\
  (forall c, In c grid -> In c cache \/ (in_product (map snd params) c /\ skip c = false)) /\
  exists rejected, NoDup rejected /\ (forall c, In c rejected -> in_product (map snd params) c /\ skip c = true) /\
    let total := Z.of_nat (length grid) + Z.of_nat (length rejected) in
    requested params n <= total /\
    (forall cached, NoDup cached -> (forall c, In c cached <-> In c cache) ->
       (Z.of_nat (length cached) <= requested params n -> total = requested params n) /\
       (requested params n <= Z.of_nat (length cached) -> forall c, In c grid <-> In c cache)).
Proof. exact Search_grid.random_grid_sound_main. Qed.
Print Assumptions random_grid_sound.

(** C51.  With distinct values random_grid ends as soon as every configuration was drawn,
    whatever is skipped. *)
Theorem random_grid_terminates :
  forall params n cache skip draws,
  0 <= n -> params <> [] -> Forall (@NoDup Z) (map snd params) ->
  (forall c, in_product (map snd params) c -> In c draws) ->
  exists grid, random_grid params n cache skip draws = Ok (grid, map fst params).
Proof. exact Search_grid.random_grid_terminates_main. Qed.
Print Assumptions random_grid_terminates.

(** C51.  With distinct values, n = 0 and nothing cached or skipped it returns exactly the
    product. *)
Theorem random_grid_all_nodes :
  forall params skip draws grid names,
  (forall c, In c draws -> in_product (map snd params) c) -> Forall (@NoDup Z) (map snd params) ->
  (forall c, in_product (map snd params) c -> skip c = false) ->
  random_grid params 0 [] skip draws = Ok (grid, names) ->
  forall c, In c grid <-> in_product (map snd params) c.
Proof. exact Search_grid.random_grid_all_main. Qed.
Print Assumptions random_grid_all_nodes.

(** C51.  With a repeated value a request for the whole grid never ends, however many
    choices are drawn. *)
Theorem random_grid_repeated_value_hangs :
  forall params n skip draws,
  params <> [] -> (forall v, In v (map snd params) -> v <> []) -> (exists v, In v (map snd params) /\ ~ NoDup v) ->
  (forall c, In c draws -> in_product (map snd params) c) ->
  n = 0 \/ Z.of_nat (grid_size (map snd params)) <= n ->
  (forall c, in_product (map snd params) c -> skip c = false) ->
  random_grid params n [] skip draws = Err OutOfFuel.
Proof. exact Search_grid.random_grid_hangs_main. Qed.
Print Assumptions random_grid_repeated_value_hangs.

(** C51.  It may return fewer configurations than requested although more admissible ones
    exist. *)
Theorem random_grid_size_refuted :
  exists params n skip draws grid names,
    (forall c, In c draws -> in_product (map snd params) c) /\
    random_grid params n [] skip draws = Ok (grid, names) /\
    Z.of_nat (length grid) < n /\
    exists admissible, NoDup admissible /\ (forall c, In c admissible -> in_product (map snd params) c /\ skip c = false) /\
      n <= Z.of_nat (length admissible).
Proof. exact Search_grid.random_grid_fewer_main. Qed.
Print Assumptions random_grid_size_refuted.

(** C51.  Bad arguments, and the full grid. *)
Theorem random_grid_bad_arguments :
  forall params n cache skip draws,
  n < 0 \/ params = [] -> random_grid params n cache skip draws = Err ValueError.
Proof. exact Search_grid.random_grid_errors. Qed.
Print Assumptions random_grid_bad_arguments.

Theorem full_grid_is_product :
  forall params,
  (params <> [] -> exists grid, full_grid params = Ok (grid, map fst params) /\ NoDup grid /\
     forall c, In c grid <-> in_product (map snd params) c) /\
  (params = [] -> full_grid params = Err ValueError).
Proof. exact Search_grid.full_grid_main. Qed.
Print Assumptions full_grid_is_product.

(** * Concrete cases *)
Example callback_demo :
  let sc := [1#10; 3#10; 2#10; 3#10; 1#10; 0; 5#10]%Q in
  let '(st, stop) := cb_run 3 cb_init sc in
  (metric_list st, max_metric st, n_iter st, stop) = ([1#10; 3#10; 2#10; 3#10; 1#10]%Q, (3#10)%Q, 4, true).
Proof. vm_compute. reflexivity. Qed.
Example callback_demo_all :
  let '(st, stop) := cb_run 3 cb_init [1#10; 0; 0; 0; 2#10]%Q in
  (metric_list st, max_metric st, stop) = ([1#10; 0; 0; 0; 2#10]%Q, (2#10)%Q, false).
Proof. vm_compute. reflexivity. Qed.

Example metric_grid_demo :
  metric_grid_tdrec (fun c => Ok (if c =? 7 then [0; 0]%Q else [1#2; 1#4; 1#8]%Q)) 0 [7; 8]
  = Ok [(8, 1, (1#2)%Q)].
Proof. vm_compute. reflexivity. Qed.
Example metric_grid_demo3 :
  metric_grid_tdrec (fun c => Ok (if c =? 7 then [0; 0]%Q else [1#2; 1#4; 1#8]%Q)) 3 [7; 8]
  = Ok [(7, 1, 0%Q); (7, 2, 0%Q); (8, 1, (1#2)%Q); (8, 2, (1#4)%Q); (8, 3, (1#8)%Q)].
Proof. vm_compute. reflexivity. Qed.

Example svd_rank_demo : get_optimal_svd_rank STEAM [(64, 3#10); (32, 3#10); (16, 1#10)] = Ok 32.
Proof. vm_compute. reflexivity. Qed.

Definition demo_table : list trial :=
  [mkTrial (8, 8, 4) 0 2 (4#10); mkTrial (4, 8, 4) 1 3 (3#10); mkTrial (8, 4, 4) (1#2) 5 (3#10);
   mkTrial (2, 2, 2) 1 6 (9#10); mkTrial (2, 2, 2) 1 1 (1#10)].
Example tdrec_params_demo :
  map (fun ds => get_optimal_tdrec_params ds demo_table) [ML20M; AMZ_B; AMZ_G; OTHER]
  = [Err TypeError; Ok (8, 8, 4, 0%Q, 2); Ok (4, 8, 4, 1%Q, 3); Err RuntimeError].
Proof. vm_compute. reflexivity. Qed.
Example tdrec_params_demo_equal : get_optimal_tdrec_params AMZ_G [mkTrial (2, 2, 2) 1 1 (1#10)] = Err IndexError.
Proof. vm_compute. reflexivity. Qed.

Example random_grid_demo :
  random_grid [(1, [10; 20]); (2, [5; 6])] 3 [[0; 0]] (fun c => match c with [20; _] => true | _ => false end)
    [[10; 5]; [10; 5]; [20; 6]; [10; 6]]
  = Ok ([[0; 0]; [10; 5]], [1; 2]).
Proof. vm_compute. reflexivity. Qed.
Example random_grid_demo_all :
  random_grid [(1, [10; 20]); (2, [5; 6])] 0 [] (fun _ => false) [[10; 5]; [10; 5]; [20; 6]; [10; 6]; [20; 5]; [10; 5]]
  = Ok ([[10; 5]; [20; 6]; [10; 6]; [20; 5]], [1; 2]).
Proof. vm_compute. reflexivity. Qed.
Example random_grid_demo_hangs :
  random_grid [(1, [10; 10])] 0 [] (fun _ => false) (repeat [10] 50) = Err OutOfFuel.
Proof. vm_compute. reflexivity. Qed.
Example full_grid_demo :
  full_grid [(1, [10; 20; 10]); (2, [5; 6])] = Ok ([[10; 5]; [10; 6]; [20; 5]; [20; 6]], [1; 2]).
Proof. vm_compute. reflexivity. Qed.
