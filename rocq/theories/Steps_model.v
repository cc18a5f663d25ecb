(** Model of source/psi_experiments/psi_step_experiments.py (the three step-by-step
    experiments and NumericalExperiment), generate_matrix and sqrt_err_relative_mtx of
    source/matrix_operations.py.  Arithmetic is an arbitrary type; QR, SVD, random numbers,
    the square root and the exponential are arguments.  Left out: computing times and plots.
    Simplifications: the axis is 0 or 1; ratios are exact rationals; a mean over no cells
    (nan) is [None]. *)
From Coq Require Import ZArith QArith Qround List Bool Lia.
From Verif Require Import Prelude Tensor_model Matrix_model Attention_model LinAlg_model.
Import ListNotations.
Open Scope nat_scope.

(** [axis=0] and [axis=1]. *)
Inductive ax := Rows | Cols.

Section Steps.
  Context {A : Type} (zero one : A) (add mul sub div : A -> A -> A) (of_nat : nat -> A).
  Notation mget := (mget zero).
  Notation dot := (dot zero add mul).
  Notation transpose := (transpose zero).
  Notation triple := (mat A * list A * mat A)%type.

  (** External: [np.linalg.qr], [np.linalg.svd], [random_svd] with its parameters fixed,
      [np.argsort], [x > ORTH_EPS], [np.sqrt] and the constant EPS (matrix_operations.py:10). *)
  Variable qr : mat A -> res (mat A * mat A).
  Variable svd : mat A -> res triple.
  Variable rsvd : mat A -> nat -> res triple.
  Variable argsort : list A -> list nat.
  Variable exceeds_eps : A -> bool.
  Variable sqrt : A -> A.
  Variable eps : A.

  (** matrix_operations.py:87-104 [generate_matrix]; [draw k] is the k-th call of
      [randn(n, rank)] and [drawv] the last one. *)
  Definition generate_matrix (draw : nat -> nat -> nat -> mat A) (drawv : nat -> list A) (n_rows n_cols rank : nat)
    : res (mat A) :=
    do '(q1, _) <- qr (draw 0 n_rows rank);
    do '(q2, _) <- qr (draw 1 n_cols rank);
    svd2mtx zero add mul q1 (drawv rank) (transpose q2).

  (** matrix_operations.py:141-151 [_mean_square], [sqrt_err_relative_mtx]. *)
  Definition total_square (a : mat A) : A :=
    sum_upto zero add (mr a) (fun i => sum_upto zero add (mc a) (fun j => mul (mget a i j) (mget a i j))).
  Definition mean_square (a : mat A) : option A :=
    if mr a * mc a =? 0 then None else Some (div (total_square a) (of_nat (mr a * mc a))).
  Definition sqrt_err_relative_mtx (a b : mat A) : res (option A) :=
    do e <- msub zero sub a b;
    Ok (match mean_square e, mean_square b with
        | Some x, Some y => Some (sqrt (div x (add y eps)))
        | _, _ => None
        end).

  (** The slices of [m] with the given positions along an axis. *)
  Definition slices (axis : ax) (m : mat A) (idx : list nat) : mat A :=
    match axis with
    | Rows => build (length idx) (mc m) (fun i j => mget m (nth i idx 0) j)
    | Cols => build (mr m) (length idx) (fun i j => mget m i (nth j idx 0))
    end.
  (** matrix_operations.py:106-139 [split_matrix] on arrays. *)
  Definition split_along (axis : ax) (m : mat A) (ratio_first ratio_next : Q) : res (list (mat A)) :=
    let ndim := match axis with Rows => mr m | Cols => mc m end in
    do blocks <- split_matrix (seq 0 ndim) ratio_first ratio_next;
    Ok (map (slices axis m) blocks).

  (** [np.concatenate([a, b], axis=axis)]. *)
  Definition concatenate (axis : ax) (a b : mat A) : res (mat A) :=
    match axis with
    | Cols => hstack zero a b
    | Rows =>
      if mc a =? mc b
      then Ok (build (mr a + mr b) (mc a) (fun i j => if i <? mr a then mget a i j else mget b (i - mr a) j))
      else Err ValueError
    end.

  (** psi_step_experiments.py:32-47: the two [triple_func]s of the experiment with new rows
      or columns; the factors are [None] before the first step. *)
  Definition triple_func := nat -> option triple -> mat A -> mat A -> nat -> res triple.
  Definition get_svd_triple : triple_func := fun step t target chunk rank => rsvd target rank.
  Definition flip (t : triple) : triple :=
    let '(u, s, vt) := t in (transpose vt, s, transpose u).
  Definition get_incremental_svd_triple (axis : ax) : triple_func := fun step t target chunk rank =>
    if step =? 0 then rsvd chunk rank
    else
      match t with
      | None => Err AttributeError
      | Some t =>
        let '(u, s, vt) := match axis with Rows => flip t | Cols => t end in
        let chunk' := match axis with Rows => transpose chunk | Cols => chunk end in
        do t' <- update_svd_new_vectors zero one add mul sub qr rsvd exceeds_eps u (SVec s) vt chunk';
        Ok (match axis with Rows => flip t' | Cols => t' end)
      end.

  (** psi_step_experiments.py:65-67, 115-117: error and shape recorded after a step. *)
  Definition record (t : triple) (target : mat A) : res (option A * (nat * nat)) :=
    let '(u, s, vt) := t in
    do a <- svd2mtx zero add mul u s vt;
    do e <- sqrt_err_relative_mtx a target;
    Ok (e, (mr target, mc target)).

  (** psi_step_experiments.py:59-67: the loop over the chunks. *)
  Fixpoint vec_loop (f : triple_func) (axis : ax) (rank i : nat) (prev : option (mat A)) (t : option triple)
    (chunks : list (mat A)) : res (list (option A * (nat * nat))) :=
    match chunks with
    | [] => Ok []
    | chunk :: rest =>
      do target <- match prev with None => Ok chunk | Some m => concatenate axis m chunk end;
      do t' <- f i t target chunk rank;
      do x <- record t' target;
      do xs <- vec_loop f axis rank (S i) (Some target) (Some t') rest;
      Ok (x :: xs)
    end.
  (** psi_step_experiments.py:49-69 [get_dynamics_vec], for a given matrix and in full. *)
  Definition dynamics_vec (f : triple_func) (axis : ax) (c : mat A) (rank : nat) (ratio_first ratio_next : Q) :=
    do chunks <- split_along axis c ratio_first ratio_next;
    vec_loop f axis rank 0 None None chunks.
  Definition get_dynamics_vec (f : triple_func) draw drawv (size rank : nat) (ratio_first ratio_next : Q) (axis : ax) :=
    do c <- generate_matrix draw drawv size size rank;
    dynamics_vec f axis c rank ratio_first ratio_next.

  (** psi_step_experiments.py:90-96 [get_incremental_svd_triple_block]. *)
  Definition get_incremental_svd_triple_block : triple_func := fun step t target chunk rank =>
    if step =? 0 then rsvd chunk rank
    else
      match t with
      | None => Err AttributeError
      | Some (u, s, vt) => update_svd_new_submatrix zero add mul svd rsvd argsort u (SVec s) vt chunk
      end.

  (** [block_diag( *blocks)]. *)
  Definition block_diag_list (blocks : list (mat A)) : mat A :=
    match blocks with
    | [] => mkMat 1 0 []
    | b :: rest => fold_left (block_diag zero) rest b
    end.

  (** psi_step_experiments.py:103: [max(int(rank // (1 / ratio_next + 1)), 1)]. *)
  Definition small_rank (rank : nat) (ratio_next : Q) : res nat :=
    if Qeq_bool ratio_next 0 then Err ZeroDivisionError
    else
      let d := (1 / ratio_next + 1)%Q in
      if Qeq_bool d 0 then Err ZeroDivisionError
      else Ok (Z.to_nat (Z.max (Qfloor (inject_Z (Z.of_nat rank) / d)) 1)).

  (** psi_step_experiments.py:109-117: the loop over the blocks; [done] are the blocks
      before [chunks]. *)
  Fixpoint mtx_loop (f : triple_func) (rank i : nat) (t : option triple) (done chunks : list (mat A))
    : res (list (option A * (nat * nat))) :=
    match chunks with
    | [] => Ok []
    | chunk :: rest =>
      let target := if i =? 0 then chunk else block_diag_list (done ++ [chunk]) in
      do t' <- f i t target chunk rank;
      do x <- record t' target;
      do xs <- mtx_loop f rank (S i) (Some t') (done ++ [chunk]) rest;
      Ok (x :: xs)
    end.
  (** psi_step_experiments.py:98-119 [get_dynamics_mtx], for a given matrix and in full. *)
  Definition dynamics_mtx (f : triple_func) (c : mat A) (rank : nat) (ratio_first ratio_next : Q) :=
    do chunks <- split_mtx_block_diag zero c ratio_first ratio_next;
    mtx_loop f rank 0 None [] chunks.
  Definition get_dynamics_mtx (f : triple_func) draw drawv (size rank : nat) (ratio_first ratio_next : Q) :=
    do small <- small_rank rank ratio_next;
    do c <- generate_matrix draw drawv size size small;
    dynamics_mtx f c rank ratio_first ratio_next.

  (** psi_step_experiments.py:137-149 [get_svd_dynamics] on arrays: the errors; an empty list
      leaves [mtx] unbound (UnboundLocalError). *)
  Definition get_svd_dynamics (l : list (mat A)) (rank : nat) : res (list (option A)) :=
    match l with
    | [] => Err UnboundLocalError
    | _ => mapM (fun m => do '(u, s, vt) <- rsvd m rank; do a <- svd2mtx zero add mul u s vt; sqrt_err_relative_mtx a m) l
    end.

  (** psi_step_experiments.py:151-174 [get_psi_dynamics]: the loop after the first matrix, with
      the current factors and the previous matrix; the errors. *)
  Fixpoint psi_loop (u s vt prev : mat A) (l : list (mat A)) : res (list (option A)) :=
    match l with
    | [] => Ok []
    | a :: rest =>
      do da <- msub zero sub a prev;
      do '(u1, s1, v1t) <- psi_step zero add mul sub qr u (SMat s) vt da;
      do sv <- dot s1 v1t;
      do b <- dot u1 sv;
      do e <- sqrt_err_relative_mtx b a;
      do es <- psi_loop u1 s1 v1t a rest;
      Ok (e :: es)
    end.
  Definition get_psi_dynamics (l : list (mat A)) (rank : nat) : res (list (option A)) :=
    match l with
    | [] => Err UnboundLocalError
    | a :: rest =>
      do '(u, s, vt) <- rsvd a rank;
      do b <- svd2mtx zero add mul u s vt;
      do e <- sqrt_err_relative_mtx b a;
      do es <- psi_loop u (np_diag zero s) vt a rest;
      Ok (e :: es)
    end.

  (** NumericalExperiment, psi_step_experiments.py:217-225 [_get_skew_symmetric] for the random
      matrix [a] and the constant 0.5. *)
  Variable half : A.
  Definition skew_symmetric (a : mat A) : res (mat A) :=
    do d <- msub zero sub a (transpose a);
    Ok (build (mr d) (mc d) (fun i j => mul half (mget d i j))).

  (** psi_step_experiments.py:227-231 [_step]; [np.exp] is an argument. *)
  Variable exp : A -> A.
  Definition scale (x : A) (m : mat A) : mat A := build (mr m) (mc m) (fun i j => mul x (mget m i j)).
  Definition dyn_step (a1 a2 : mat A) (t : A) (q1 q2 : mat A) : res (mat A) :=
    do a3 <- madd zero add a1 (scale (exp t) a2);
    do b <- dot q1 a3;
    dot b (transpose q2).
  (** psi_step_experiments.py:233-242 [_solve_ivp]. *)
  Definition solve_ivp (q mix : mat A) (h : A) : res (mat A) :=
    let ht := scale h mix in
    dot (build (mr ht) (mc ht) (fun i j => if i =? j then add (mget ht i j) one else mget ht i j)) q.
  (** psi_step_experiments.py:244-254 [get_dynamics_list]: the loop and the function. *)
  Fixpoint dyn_loop (a1 a2 t1 t2 : mat A) (h t : A) (q1 q2 : mat A) (n : nat) : res (list (mat A)) :=
    match n with
    | O => Ok []
    | S n' =>
      do a <- dyn_step a1 a2 t q1 q2;
      do q1' <- solve_ivp q1 t1 h;
      do q2' <- solve_ivp q2 t2 h;
      do l <- dyn_loop a1 a2 t1 t2 h (add t h) q1' q2' n';
      Ok (a :: l)
    end.
  Definition get_dynamics_list (a1 a2 t1 t2 : mat A) (t0 h : A) (size n_steps : nat) : res (list (mat A)) :=
    dyn_loop a1 a2 t1 t2 h t0 (eye zero one size) (eye zero one size) n_steps.

  (** psi_step_experiments.py:200-215 [_get_const_mtx] on square shapes, for the two random
      matrices; adding a block that does not fit raises ValueError unless it broadcasts. *)
  Definition get_const_mtx (small large : A) (block full : mat A) (size bsize : nat) : res (mat A) :=
    if (bsize <=? size) || (bsize =? 1) then
      Ok (build size size (fun i j =>
            let x := mul small (mget full i j) in
            if (i <? bsize) && (j <? bsize)
            then add x (if i =? j then add (mul large (mget block i j)) one else mul large (mget block i j))
            else x))
    else Err ValueError.
  (** psi_step_experiments.py:177-198 [__init__]: the matrices a1, a2, t1, t2 from the random
      ones ([rand k] for the block, the square and the skew-symmetric matrix of seed [k]). *)
  Definition numerical_experiment (small large : A) (rand_block rand_full rand_skew : nat -> mat A) (size bsize : nat)
    : res (mat A * mat A * mat A * mat A) :=
    do a1 <- get_const_mtx small large (rand_block 0) (rand_full 0) size bsize;
    do a2 <- get_const_mtx small large (rand_block 1) (rand_full 1) size bsize;
    do t1 <- skew_symmetric (rand_skew 0);
    do t2 <- skew_symmetric (rand_skew 1);
    Ok (a1, a2, t1, t2).
  (** [np.linspace(start, stop, n)]. *)
  Definition linspace (start stop : A) (n : nat) : list A :=
    map (fun k => if (1 <? n) && (k =? n - 1) then stop
                  else if 1 <? n then add (mul (of_nat k) (div (sub stop start) (of_nat (n - 1)))) start
                  else start) (seq 0 n).
  (** psi_step_experiments.py:256-261 [compare_approximations]: the plotted times and the two
      lists of errors. *)
  Definition compare_approximations (a1 a2 t1 t2 : mat A) (t0 h : A) (size n_steps rank : nat)
    : res (list A * list (option A) * list (option A)) :=
    do l <- get_dynamics_list a1 a2 t1 t2 t0 h size n_steps;
    do es <- get_svd_dynamics l rank;
    do ep <- get_psi_dynamics l rank;
    Ok (linspace t0 (add t0 (mul (of_nat (n_steps - 1)) h)) n_steps, es, ep).
End Steps.
