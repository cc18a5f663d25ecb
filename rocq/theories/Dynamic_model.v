(** Model of source/experiments/dynamical_experiment.py and source/general_functions.py. *)
From Coq Require Import ZArith QArith List Bool.
From Verif Require Import Prelude DataPrep_model Eval_model Tensor_model Matrix_model LinAlg_model History_model Retrain_model.
Import ListNotations.
Open Scope Z_scope.

(** source/general_functions.py:11-24 [sliding_window] for a non-negative window; values are
    exact rationals.  [np.mean] of an empty slice (window 0) is nan, here 0. *)
Inductive win_mode := WSum | WMean | WOther.
Definition qsum (l : list Q) : Q := fold_left Qplus l 0%Q.
Definition sliding_window (arr : list Q) (win_len : nat) (mode : win_mode) : res (list Q) :=
  if (length arr <? win_len)%nat then Ok arr
  else
    do f <- match mode with
            | WSum => Ok qsum
            | WMean => Ok (fun l => (qsum l / inject_Z (Z.of_nat (length l)))%Q)
            | WOther => Err NotImplementedError
            end;
    Ok (map (fun i => f (firstn win_len (skipn i arr))) (seq 0 (length arr - win_len + 1))).

Section Norms.
  Context {A V : Type} (zero : A) (sub : A -> A -> A).
  (** [np.linalg.norm(., ord='fro')] and the division of two numbers. *)
  Variable norm : mat A -> V.
  Variable div : V -> V -> V.

  (** source/general_functions.py:26-30 [rel_norm]. *)
  Definition rel_norm (a b : mat A) : res V :=
    do d <- msub zero sub a b; Ok (div (norm d) (norm a)).

  (** source/experiments/dynamical_experiment.py:119-122, 132-135 (and for items): the older
      embeddings get zero rows for the entities that came in. *)
  Definition pad_rows (old new : mat A) : res (mat A) :=
    if (mr old <? mr new)%nat
    then set_block zero (zeros zero (mr new) (mc new)) 0 (mr old) 0 (mc new) old
    else Ok old.
End Norms.

(** The interface of the recommenders, for a state [S] and training tables [D]: [train],
    the update function with a chunk or the concatenated table (it may read the factors and
    mappings of the state, as the re-initialised model does), [mappings], [recommend] with
    the number of recommendations fixed (users, [internal]), [get_n_items], [get_u], [get_v].
    Simplification: recommending leaves the state unchanged. *)
Record api (S D A : Type) := mkApi {
  train : S -> D -> res S;
  update : S -> list row + D -> res S;
  maps : S -> mappings;
  recommend : S -> list Z -> bool -> res (list (list Z));
  n_items : S -> nat;
  get_u : S -> res (mat A);
  get_v : S -> res (mat A)
}.
Arguments train {S D A}. Arguments update {S D A}. Arguments maps {S D A}.
Arguments recommend {S D A}. Arguments n_items {S D A}. Arguments get_u {S D A}. Arguments get_v {S D A}.

(** The dictionary of results (source/experiments/dynamical_experiment.py:77-86). *)
Record dynamics (T V : Type) := mkDyn {
  calculation_time : list T; d_hr : list Q; d_mrr : list Q; d_wji : list Q;
  rnd_users : list V; rnd_items : list V; nd_users : list V; nd_items : list V
}.
Arguments mkDyn {T V}.
Arguments calculation_time {T V}. Arguments d_hr {T V}. Arguments d_mrr {T V}. Arguments d_wji {T V}.
Arguments rnd_users {T V}. Arguments rnd_items {T V}. Arguments nd_users {T V}. Arguments nd_items {T V}.

(** Reading a local variable; before its assignment Python raises (never met). *)
Definition local {X} (v : option X) : res X := match v with Some x => Ok x | None => Err RuntimeError end.

(** Second component of [rec_array.shape]. *)
Definition width (rec : list (list Z)) : nat := match rec with [] => 0 | r :: _ => length r end.

Section Experiment.
  Context {S D A V T : Type} (zero : A) (sub : A -> A -> A).
  Variable norm : mat A -> V.
  Variable div : V -> V -> V.
  Variable minus_one : V.
  (** Time taken by the [i]-th timed call. *)
  Variable clock : nat -> T.
  Variable m : api S D A.
  (** Growing the concatenated table by a chunk. *)
  Variable grow : D -> list row -> res D.
  Variable test_users : list Z.
  Variable chunk_mode : bool.      (* upd_data_mode = 'chunk' *)
  Variable how_many_iterations : Z.

  (** The local variables rec_array_t1, rec_array_t2, (u1, v1), (u2, v2). *)
  Record locals := mkLocals {
    rec_t1 : option (list (list Z)); rec_t2 : option (list (list Z));
    emb1 : option (mat A * mat A); emb2 : option (mat A * mat A) }.

  (** source/experiments/dynamical_experiment.py:103-111. *)
  Definition wji_step (iter : Z) (st : S) (l : locals) (series : list Q) : res (locals * list Q) :=
    if iter =? 1 then
      do r <- recommend m st test_users true;
      Ok (mkLocals (Some r) (rec_t2 l) (emb1 l) (emb2 l), series)
    else if iter =? 2 then
      do r2 <- recommend m st test_users true;
      do r1 <- local (rec_t1 l);
      do w <- wji_sim r1 r2 (width r1) (n_items m st);
      Ok (mkLocals (Some r1) (Some r2) (emb1 l) (emb2 l), series ++ [w])
    else
      do r1 <- local (rec_t2 l);
      do r2 <- recommend m st test_users true;
      do w <- wji_sim r1 r2 (width r1) (n_items m st);
      Ok (mkLocals (Some r1) (Some r2) (emb1 l) (emb2 l), series ++ [w]).

  (** source/experiments/dynamical_experiment.py:114-144. *)
  Definition emb_step (iter : Z) (st : S) (l : locals) (us vs : list V) : res (locals * list V * list V) :=
    if iter =? 1 then
      do u <- get_u m st; do v <- get_v m st;
      Ok (mkLocals (rec_t1 l) (rec_t2 l) (Some (u, v)) (emb2 l), us, vs)
    else if iter =? 2 then
      do u2 <- get_u m st; do v2 <- get_v m st;
      do '(u1, v1) <- local (emb1 l);
      do u1' <- pad_rows zero u1 u2;
      do v1' <- pad_rows zero v1 v2;
      do du <- msub zero sub u2 u1'; do x <- rel_norm zero sub norm div du u2;
      do dv <- msub zero sub v2 v1'; do y <- rel_norm zero sub norm div dv v2;
      Ok (mkLocals (rec_t1 l) (rec_t2 l) (Some (u1', v1')) (Some (u2, v2)), us ++ [x], vs ++ [y])
    else
      do '(u1, v1) <- local (emb2 l);
      do u2 <- get_u m st; do v2 <- get_v m st;
      do u1' <- pad_rows zero u1 u2;
      do du <- msub zero sub u2 u1'; do x <- rel_norm zero sub norm div du u2;
      do v1' <- pad_rows zero v1 v2;
      do y <- (if (mr v2 <? mr v1')%nat then Ok minus_one
               else do dv <- msub zero sub v2 v1'; rel_norm zero sub norm div dv v2);
      Ok (mkLocals (rec_t1 l) (rec_t2 l) (Some (u1', v1')) (Some (u2, v2)), us ++ [x], vs ++ [y]).

  (** source/experiments/dynamical_experiment.py:91-173: the loop; a negative or zero number
      of iterations never meets the iteration number. *)
  Fixpoint exp_loop (iter : Z) (stream : list (list row)) (st : S) (concatenated : D) (l : locals)
           (calls : nat) (dyn : dynamics T V) : res (dynamics T V) :=
    match stream with
    | [] => Ok dyn
    | chunk :: stream' =>
      let '(users, items) := get_users_to_recommend_test_items chunk (maps m st) in
      do rec <- recommend m st users false;
      do h <- hr rec items; do mr' <- mrr rec items;
      do '(l1, wjis) <- wji_step iter st l (d_wji dyn);
      do '(l2, us, vs) <- emb_step iter st l1 (rnd_users dyn) (rnd_items dyn);
      do u <- get_u m st; do v <- get_v m st;
      do concatenated' <- (if chunk_mode then Ok concatenated else grow concatenated chunk);
      do st' <- update m st (if chunk_mode then inl chunk else inr concatenated');
      let dyn' := mkDyn (calculation_time dyn ++ [clock calls]) (d_hr dyn ++ [h]) (d_mrr dyn ++ [mr']) wjis us vs
                        (nd_users dyn ++ [norm u]) (nd_items dyn ++ [norm v]) in
      if iter =? how_many_iterations then Ok dyn'
      else exp_loop (iter + 1) stream' st' concatenated' l2 (calls + 1) dyn'
    end.

  (** source/experiments/dynamical_experiment.py:23-174 [dynamical_experiment]. *)
  Definition dynamical_experiment (st0 : S) (initial_data : D) (stream : list (list row)) : res (dynamics T V) :=
    do st <- train m st0 initial_data;
    exp_loop 1 stream st initial_data (mkLocals None None None None) 1
      (mkDyn [clock 0%nat] [] [] [] [] [] [] []).
End Experiment.

(** source/experiments/dynamical_experiment.py:154-162: the two ways of growing the table. *)
Definition grow_2d (concatenated chunk : list row) : res (list row) := Ok (concatenated ++ chunk).
Definition grow_3d (max_len_history : nat) (concatenated : list prow) (chunk : list row) : res (list prow) :=
  grow_table concatenated chunk max_len_history.
