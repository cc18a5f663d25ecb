(** Model of the incremental updates of source/tucker_integrator.py that add rows
    (update_tucker_new_vectors) or a block (update_tucker_new_matrix).  QR, SVD and random
    numbers are arguments. *)
From Coq Require Import ZArith List Bool Lia.
From Verif Require Import Prelude Tensor_model Matrix_model Attention_model LinAlg_model Hooi_model.
Import ListNotations.
Open Scope nat_scope.

(** scipy.sparse.linalg.LinearOperator(shape, matvec, rmatvec). *)
Record linop (A : Type) : Type := mkOp {
  op_r : nat; op_c : nat;
  op_mv : list A -> res (list A);
  op_rmv : list A -> res (list A) }.
Arguments mkOp {A}. Arguments op_r {A}. Arguments op_c {A}. Arguments op_mv {A}. Arguments op_rmv {A}.

Section Upd.
  Context {A : Type} (zero one : A) (add mul sub : A -> A -> A).
  Notation mget := (mget zero).
  Notation dot := (dot zero add mul).
  Notation transpose := (transpose zero).
  Notation matvec := (matvec zero add mul).

  (** [np.kron(a, b)] for matrices. *)
  Definition np_kron (a b : mat A) : mat A :=
    build (mr a * mr b) (mc a * mc b)
          (fun i j => mul (mget a (i / mr b) (j / mc b)) (mget b (i mod mr b) (j mod mc b))).

  (** [v.reshape((r, c), order='F')] and [m.flatten(order='F')]. *)
  Definition reshape_f (v : list A) (r c : nat) : res (mat A) :=
    if length v =? r * c then Ok (build r c (fun i j => nth (j * r + i) v zero)) else Err ValueError.
  Definition flatten_f (m : mat A) : list A :=
    map (fun y => mget m (y mod mr m) (y / mr m)) (seq 0 (mr m * mc m)).

  (** [m[::-1, :]]. *)
  Definition reverse_rows (m : mat A) : mat A := build (mr m) (mc m) (fun i j => mget m (mr m - 1 - i) j).

  (** source/tucker_integrator.py:169-190: the operator [W kron V] applied after the
      transposed core; [lf], [rf] are the factors of the second and of the first other
      mode.  np.linalg.multi_dot chooses an order of multiplication; here left to right. *)
  Definition kron_mv (core_unf lf rf : mat A) (v : list A) : res (list A) :=
    do cv <- matvec (transpose core_unf) v;
    do cv_mat <- reshape_f cv (mc rf) (mc lf);
    do p <- dot rf cv_mat;
    do res <- dot p (transpose lf);
    Ok (flatten_f res).
  Definition kron_rmv (core_unf lf rf : mat A) (v : list A) : res (list A) :=
    do v_mat <- reshape_f v (mr rf) (mr lf);
    do p <- dot (transpose rf) v_mat;
    do rvl <- dot p lf;
    matvec core_unf (flatten_f rvl).
  Definition kron_op (core_unf lf rf : mat A) (rank : nat) : linop A :=
    mkOp (mr rf * mr lf) rank (kron_mv core_unf lf rf) (kron_rmv core_unf lf rf).

  (** External: reduced QR; [svds op k] for a linear operator (solver propack);
      [rsvd1 x r], [rsvd2 x r] the two calls of [random_svd] (the second with the default
      numbers of power iterations and extra samples); [exceeds_eps x]: [x > ORTH_EPS]. *)
  Variable qr : mat A -> res (mat A * mat A).
  Variable svds : linop A -> nat -> res (mat A * list A * mat A).
  Variables rsvd1 rsvd2 : mat A -> nat -> res (mat A * list A * mat A).
  Variable exceeds_eps : A -> bool.

  (** source/tucker_integrator.py:160-193: factors of the transposed unfolding [V W]
      without the factor of the mode: [v1t], [s1], [u1]. *)
  Definition unfolding_svd (explicit_calc : bool) (core_unf w_v lf rf : mat A) (rank : nat)
    : res (mat A * list A * mat A) :=
    if explicit_calc then
      do x <- dot core_unf w_v;
      do '(v1t, s1, u1) <- rsvd1 (transpose x) rank;
      Ok (transpose v1t, s1, transpose u1)
    else
      do '(v1t, s1, u1) <- svds (kron_op core_unf lf rf rank) rank;
      Ok (transpose (reverse_cols zero v1t), rev s1, transpose (reverse_rows u1)).

  (** source/tucker_integrator.py:102-210 [update_tucker_new_vectors]; [new_vectors] is a
      dense array here (a sparse one in the callers). *)
  Definition update_tucker_new_vectors (explicit_calc : bool) (fs : @factors A) (core : ten A)
             (new_vectors : mat A) (mode : nat) : res (@factors A * ten A) :=
    if 2 <? mode then Err ValueError
    else
      let '(a, b) := others mode in
      do core_unf <- unfold_dense zero core (Z.of_nat mode);
      let w_v := np_kron (transpose (factor fs b)) (transpose (factor fs a)) in
      do '(v1t, s1, u1) <- unfolding_svd explicit_calc core_unf w_v (factor fs b) (factor fs a) (pick (tshape core) mode);
      do fu <- dot (factor fs mode) u1;
      do '(v2, s2, u2) <- update_svd_new_vectors zero one add mul sub qr rsvd2 exceeds_eps
                            (transpose v1t) (SVec s1) (transpose fu) (transpose new_vectors);
      do s_vt <- broadcast zero mul (mkMat (length s2) 1 s2) (transpose v2);
      do c <- dot s_vt (transpose w_v);
      do core' <- fold_dense zero c (tshape core) (Z.of_nat mode);
      Ok (set_factor fs mode (transpose u2), core').

  (** External for [update_tucker_new_matrix]: random initial factors of the two inner
      decompositions (discarded), [random_svd] inside them, full SVD. *)
  Variables rand2 rand3 : nat -> nat -> nat -> mat A.
  Variables rsvd3 rsvd4 : nat -> mat A -> nat -> res (mat A * list A * mat A).
  Variable svd_full : mat A -> res (mat A * list A * mat A).

  (** source/tucker_integrator.py:271-276: zeros with [core] in the leading corner and
      [core'] in the opposite one; the third axis of [core'] is broadcast. *)
  Definition extended_core (core core' : ten A) : res (ten A) :=
    let '(p0, p1, p2) := tshape core in
    let '(q0, q1, q2) := tshape core' in
    if (q2 =? p2) || (q2 =? 1) then
      Ok (mkTen (p0 + q0, p1 + q1, p2)
            (map (fun c : coord =>
               let '(i, j, k) := c in
               if (i <? p0) && (j <? p1) then tget zero core c
               else if (p0 <=? i) && (p1 <=? j) then tget zero core' (i - p0, j - p1, if q2 =? 1 then 0 else k)
               else zero) (cells (p0 + q0, p1 + q1, p2))))
    else Err ValueError.

  (** source/tucker_integrator.py:212-288 [update_tucker_new_matrix]. *)
  Definition update_tucker_new_matrix (fs : @factors A) (core : ten A) (inds : list coord) (vals : list A)
             (new_shape : coord) (att : option (mat A)) : res (@factors A * ten A) :=
    let u0 := factor fs 0 in
    let v0 := factor fs 1 in
    let w0 := factor fs 2 in
    do aw <- match att with Some a => dot a w0 | None => Ok w0 end;
    do x <- tensordot zero add mul inds vals new_shape (transpose aw) 2;
    do '(un, vn, cn) <- tucker2_dense zero one add mul qr rand2 rsvd3 svd_full x (tshape x) 2;
    do core1 <- extended_core core cn;
    do '(fs1, new_core) <- hosvd_dense zero add mul qr rand3 rsvd4 core1 (tshape core);
    do u <- dot (block_diag zero u0 un) (factor fs1 0);
    do v <- dot (block_diag zero v0 vn) (factor fs1 1);
    do w <- dot w0 (factor fs1 2);
    Ok ((u, v, w), new_core).
End Upd.
