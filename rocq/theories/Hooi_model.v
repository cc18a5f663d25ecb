(** Model of source/rp_hooi.py and source/hosvd.py.  Random numbers, QR and the inner
    truncated SVD are arguments; so are the norm of the core and the growth test. *)
From Coq Require Import ZArith List Bool Lia.
From Verif Require Import Prelude Tensor_model Matrix_model Attention_model LinAlg_model.
Import ListNotations.
Open Scope nat_scope.

(** [for x in l: body], the body may raise. *)
Fixpoint for_each {S X} (body : X -> S -> res S) (l : list X) (s : S) : res S :=
  match l with
  | [] => Ok s
  | x :: l' => do s' <- body x s; for_each body l' s'
  end.

(** [modes[modes != mode]] for a mode 0, 1 or 2. *)
Definition others (mode : nat) : nat * nat :=
  match mode with O => (1, 2) | 1 => (0, 2) | _ => (0, 1) end.

(** source/rp_hooi.py:14-20 [tucker_rank_is_valid] for three modes. *)
Definition rank_is_valid (rank : coord) : bool :=
  forallb (fun mode => pick rank mode <=? pick rank (fst (others mode)) * pick rank (snd (others mode))) [0; 1; 2].

(** source/rp_hooi.py:26-30 [check_params]; shapes have three components. *)
Definition check_params (rank : coord) : res unit :=
  if rank_is_valid rank then Ok tt else Err RuntimeError.

Section Hooi.
  Context {A : Type} (zero one : A) (add mul : A -> A -> A).
  Notation mget := (mget zero).
  Notation dot := (dot zero add mul).
  Notation transpose := (transpose zero).

  (** The list of the three factors; item access and assignment. *)
  Definition factors : Type := mat A * mat A * mat A.
  Definition factor (fs : factors) (mode : nat) : mat A :=
    match mode with O => fst (fst fs) | 1 => snd (fst fs) | _ => snd fs end.
  Definition set_factor (fs : factors) (mode : nat) (m : mat A) : factors :=
    match mode with
    | O => (m, snd (fst fs), snd fs)
    | 1 => (fst (fst fs), m, snd fs)
    | _ => (fst (fst fs), snd (fst fs), m)
    end.

  (** [np.ascontiguousarray(u[:, ::-1])]. *)
  Definition reverse_cols (m : mat A) : mat A := build (mr m) (mc m) (fun i j => mget m i (mc m - 1 - j)).

  (** External: reduced QR; [rand mode n r] the random array drawn for a mode;
      [rsvd t x r] the result of the t-th call of [random_svd] (with [seed=None] it
      depends on the state of the generator, hence on [t]). *)
  Variable qr : mat A -> res (mat A * mat A).
  Variable rand : nat -> nat -> nat -> mat A.
  Variable rsvd : nat -> mat A -> nat -> res (mat A * list A * mat A).

  (** source/rp_hooi.py:32-40 [init_factors]. *)
  Definition init_factor (orthogonal : bool) (shape rank : coord) (mode : nat) : res (mat A) :=
    let u := rand mode (pick shape mode) (pick rank mode) in
    if orthogonal then do '(q, _) <- qr u; Ok q else Ok u.
  Definition init_factors (orthogonal : bool) (shape rank : coord) : res factors :=
    do f0 <- init_factor orthogonal shape rank 0;
    do f1 <- init_factor orthogonal shape rank 1;
    do f2 <- init_factor orthogonal shape rank 2;
    Ok (f0, f1, f2).

  (** [tensordot2(inds, vals, shape, u, v, (mu, mv)).reshape(shape[mode], rank[mu]*rank[mv])]
      (source/rp_hooi.py:110-111, 149-150 and 246-247). *)
  Definition contraction (inds : list coord) (vals : list A) (shape rank : coord) (fs : factors) (mode : nat)
    : res (mat A) :=
    let '(mu, mv) := others mode in
    do t <- tensordot2 zero add mul inds vals shape (factor fs mu) (factor fs mv) (Z.of_nat mu) (Z.of_nat mv);
    reshape32 t (pick shape mode) (pick rank mu * pick rank mv).

  (** External: [np.linalg.norm(core)] and the test that the core has grown,
      [(new - old) / (new + EPS) >= growth_tol] (source/rp_hooi.py:42-47 and 116-119);
      [norm0] is the initial value 0. *)
  Context {N : Type} (norm : ten A -> N) (norm0 : N) (grew : N -> N -> bool).

  (** source/rp_hooi.py:108-113: one mode of rp_hooi in sweep [i]. *)
  Definition rp_mode (inds : list coord) (vals : list A) (shape rank : coord) (i mode : nat) (fs : factors)
    : res factors :=
    do m <- contraction inds vals shape rank fs mode;
    do '(uu, _, _) <- rsvd (3 * i + mode) m (pick rank mode);
    Ok (set_factor fs mode (reverse_cols uu)).

  (** source/rp_hooi.py:106-121: [left] sweeps remain, [i] are done; [None] is the empty
      array the core is initialised with. *)
  Fixpoint rp_loop (inds : list coord) (vals : list A) (shape rank : coord) (left i : nat)
           (fs : factors) (core : option (ten A)) (old : N) : res (factors * option (ten A)) :=
    match left with
    | O => Ok (fs, core)
    | S left' =>
      do fs' <- for_each (rp_mode inds vals shape rank i) [0; 1; 2] fs;
      do core' <- construct_core zero add mul inds vals (factor fs' 0) (factor fs' 1) (factor fs' 2);
      let new := norm core' in
      if grew new old then rp_loop inds vals shape rank left' (S i) fs' (Some core') new
      else Ok (fs', Some core')
    end.

  (** source/rp_hooi.py:49-122 [rp_hooi]; construct_core_parallel gives the same core (C31). *)
  Definition rp_hooi (inds : list coord) (vals : list A) (shape rank : coord) (n_iter : nat)
    : res (factors * option (ten A)) :=
    do _ <- check_params rank;
    do fs <- init_factors true shape rank;
    rp_loop inds vals shape rank n_iter 0 fs None norm0.

  (** source/rp_hooi.py:124-165 [tucker2] for a non-negative identity mode. *)
  Definition tucker2_mode (inds : list coord) (vals : list A) (shape rank : coord) (identity_mode i mode : nat)
             (fs : factors) : res factors :=
    if mode =? identity_mode then Ok fs
    else
      do m <- contraction inds vals shape rank fs mode;
      do '(uu, _, _) <- rsvd (3 * i + mode) m (pick rank mode);
      Ok (set_factor fs mode (reverse_cols uu)).
  Fixpoint tucker2_loop (inds : list coord) (vals : list A) (shape rank : coord) (identity_mode left i : nat)
           (fs : factors) (core : option (ten A)) (old : N) : res (factors * option (ten A)) :=
    match left with
    | O => Ok (fs, core)
    | S left' =>
      do fs' <- for_each (tucker2_mode inds vals shape rank identity_mode i) [0; 1; 2] fs;
      do core' <- construct_core zero add mul inds vals (factor fs' 0) (factor fs' 1) (factor fs' 2);
      let new := norm core' in
      if grew new old then tucker2_loop inds vals shape rank identity_mode left' (S i) fs' (Some core') new
      else Ok (fs', Some core')
    end.
  Definition tucker2 (inds : list coord) (vals : list A) (shape rank : coord) (identity_mode n_iter : nat)
    : res (mat A * mat A * option (ten A)) :=
    do _ <- check_params rank;
    do fs <- init_factors true shape rank;
    if 2 <? identity_mode then Err IndexError
    else
      let fs' := set_factor fs identity_mode (eye zero one (pick rank identity_mode)) in
      do '(fs'', core) <- tucker2_loop inds vals shape rank identity_mode n_iter 0 fs' None norm0;
      let '(a, b) := others identity_mode in
      Ok (factor fs'' a, factor fs'' b, core).

  (** [f[:n_rows] = x] with [n_rows = x.shape[0]] (source/rp_hooi.py:234-235): numpy
      broadcasts axes of length 1 and raises ValueError if the shapes do not fit. *)
  Definition overlay (f x : mat A) : res (mat A) :=
    let rows := Nat.min (mr x) (mr f) in
    if ((mr x =? rows) || (mr x =? 1)) && ((mc x =? mc f) || (mc x =? 1))
    then Ok (build (mr f) (mc f) (fun i j =>
           if i <? rows then mget x (if mr x =? 1 then 0 else i) (if mc x =? 1 then 0 else j) else mget f i j))
    else Err ValueError.

  (** source/rp_hooi.py:244-250: one mode of ga_satf in sweep [i]. *)
  Definition ga_mode (inds : list coord) (vals : list A) (shape rank : coord) (att : mat A) (i mode : nat)
             (fs : factors) : res factors :=
    do m <- contraction inds vals shape rank fs mode;
    do m' <- (if mode =? 2 then dot (transpose att) m else Ok m);
    do '(uu, _, _) <- rsvd (3 * i + mode) m' (pick rank mode);
    Ok (set_factor fs mode (reverse_cols uu)).

  (** source/rp_hooi.py:241-263; [exit_callback] may keep a state of its own (the
      callback of the hyper-parameter search does). *)
  Context {C : Type}.
  Definition callback : Type := C -> factors -> ten A -> res (C * bool).
  Fixpoint ga_loop (inds : list coord) (vals : list A) (shape rank : coord) (att : mat A)
           (exit_callback : option callback) (force_n_iter : bool) (left i : nat)
           (fs : factors) (core : option (ten A)) (old : N) (st : C) : res (factors * option (ten A) * C) :=
    match left with
    | O => Ok (fs, core, st)
    | S left' =>
      do w <- dot att (factor fs 2);
      do fs' <- for_each (ga_mode inds vals shape rank att i) [0; 1; 2] (set_factor fs 2 w);
      do wa <- dot att (factor fs' 2);
      do core' <- construct_core zero add mul inds vals (factor fs' 0) (factor fs' 1) wa;
      let continue := ga_loop inds vals shape rank att exit_callback force_n_iter left' (S i) fs' (Some core') in
      if force_n_iter then continue old st
      else
        match exit_callback with
        | None =>
          let new := norm core' in
          if grew new old then continue new st else Ok (fs', Some core', st)
        | Some cb =>
          do '(st', stop) <- cb st fs' core';
          if (stop : bool) then Ok (fs', Some core', st') else continue old st'
        end
    end.

  (** source/rp_hooi.py:167-264 [ga_satf]. *)
  Definition ga_satf (inds : list coord) (vals : list A) (shape rank : coord) (att : mat A) (n_iter : nat)
             (exit_callback : option callback) (init : option factors) (force_n_iter : bool) (st : C)
    : res (factors * option (ten A) * C) :=
    do _ <- check_params rank;
    do fs <- init_factors true shape rank;
    do fs' <- match init with
              | None => Ok fs
              | Some xs =>
                do f0 <- overlay (factor fs 0) (factor xs 0);
                do f1 <- overlay (factor fs 1) (factor xs 1);
                do f2 <- overlay (factor fs 2) (factor xs 2);
                Ok (f0, f1, f2)
              end;
    ga_loop inds vals shape rank att exit_callback force_n_iter n_iter 0 fs' None norm0 st.

  (** [construct_core_parallel_dense(x, u1, u2, u3)]: equal to the sparse routine on the
      sparse form of the tensor for every schedule (C31). *)
  Definition core_dense (x : ten A) (u1 u2 u3 : mat A) : res (ten A) :=
    let '(inds, vals) := dense_to_sparse_tensor zero x in
    construct_core zero add mul inds vals u1 u2 u3.

  (** External: [svds(x, k)] of scipy on a sparse matrix, left vectors. *)
  Variable svds_u : @coo A -> nat -> res (mat A).

  (** source/hosvd.py:22-78 [hosvd]. *)
  Definition hosvd_mode (inds : list coord) (vals : list A) (shape rank : coord) (mode : nat) (fs : factors)
    : res factors :=
    do x <- unfold_sparse inds vals shape (Z.of_nat mode);
    do u <- svds_u x (pick rank mode);
    Ok (set_factor fs mode (reverse_cols u)).
  Definition hosvd (inds : list coord) (vals : list A) (shape rank : coord) : res (factors * ten A) :=
    do _ <- check_params rank;
    do fs <- init_factors false shape rank;
    do fs' <- for_each (hosvd_mode inds vals shape rank) [0; 1; 2] fs;
    do core <- construct_core zero add mul inds vals (factor fs' 0) (factor fs' 1) (factor fs' 2);
    Ok (fs', core).

  (** source/hosvd.py:80-135 [hosvd_dense]. *)
  Definition hosvd_dense_mode (x : ten A) (rank : coord) (mode : nat) (fs : factors) : res factors :=
    do m <- unfold_dense zero x (Z.of_nat mode);
    do '(_, _, ut) <- rsvd mode (transpose m) (pick rank mode);
    Ok (set_factor fs mode (reverse_cols (transpose ut))).
  Definition hosvd_dense (x : ten A) (rank : coord) : res (factors * ten A) :=
    do _ <- check_params rank;
    do fs <- init_factors false (tshape x) rank;
    do fs' <- for_each (hosvd_dense_mode x rank) [0; 1; 2] fs;
    do core <- core_dense x (factor fs' 0) (factor fs' 1) (factor fs' 2);
    Ok (fs', core).

  (** External: [np.linalg.svd(x, full_matrices=True)]. *)
  Variable svd_full : mat A -> res (mat A * list A * mat A).

  (** source/hosvd.py:137-171 [tucker2_dense] for a non-negative identity mode. *)
  Definition tucker2_dense_mode (x : ten A) (rank : coord) (identity_mode mode : nat) (fs : factors)
    : res factors :=
    if mode =? identity_mode then Ok fs
    else
      do m <- unfold_dense zero x (Z.of_nat mode);
      do '(_, _, ut) <- (if rank_is_valid rank then rsvd mode (transpose m) (pick rank mode)
                         else svd_full (transpose m));
      Ok (set_factor fs mode (reverse_cols (transpose ut))).
  Definition tucker2_dense (x : ten A) (rank : coord) (identity_mode : nat) : res (mat A * mat A * ten A) :=
    do fs <- init_factors false (tshape x) rank;
    if 2 <? identity_mode then Err IndexError
    else
      let fs' := set_factor fs identity_mode (eye zero one (pick rank identity_mode)) in
      do fs'' <- for_each (tucker2_dense_mode x rank identity_mode) [0; 1; 2] fs';
      do core <- core_dense x (factor fs'' 0) (factor fs'' 1) (factor fs'' 2);
      let '(a, b) := others identity_mode in
      Ok (factor fs'' a, factor fs'' b, core).
End Hooi.
