(** Specification vocabulary for the incremental Tucker updates. *)
From Verif Require Import Prelude Tensor_model Tensor_spec Matrix_model Attention_model LinAlg_model Hooi_model Upd_model.
Set Warnings "-notation-overridden".
From mathcomp Require Import all_ssreflect all_algebra.
From Verif Require Import LinAlg_spec Tucker_spec Hooi_spec.
Set Implicit Arguments.
Unset Strict Implicit.
Unset Printing Implicit Defensive.
Import GRing.Theory.
Local Open Scope ring_scope.

Section Spec.
Variable R : comRingType.

(** A list as a column. *)
Definition column n (v : list R) : 'cV[R]_n := \col_i nth 0 v i.

(** The operator [op] multiplies by [X] and by its transpose. *)
Definition op_is m n (X : 'M[R]_(m, n)) (op : linop R) : Prop :=
  [/\ op_r op = m, op_c op = n,
      forall v, size v = n -> exists2 w, op_mv op v = Ok w & size w = m /\ column m w = X *m column n v
    & forall v, size v = m -> exists2 w, op_rmv op v = Ok w & size w = n /\ column n w = X^T *m column m v].

(** Product of the three factors of an SVD of rank [k]. *)
Definition product m k n (t : mat R * list R * mat R) : 'M[R]_(m, n) :=
  mx m k t.1.1 *m dg k t.1.2 *m mx k n t.2.

(** Shapes and orthonormality of an SVD of rank [k] of an [m] by [n] matrix. *)
Definition svd_factors m k n (t : mat R * list R * mat R) : Prop :=
  [/\ shape m k t.1.1, size t.1.2 = k, shape k n t.2, (mx m k t.1.1)^T *m mx m k t.1.1 = 1%:M
    & mx k n t.2 *m (mx k n t.2)^T = 1%:M].

(** Contract of a truncated SVD of a matrix: orthonormal factors of the requested rank. *)
Definition truncated_ok (rsvd : mat R -> nat -> res (mat R * list R * mat R)) : Prop :=
  forall x rank t, rsvd x rank = Ok t -> svd_factors (mr x) (minn rank (minn (mr x) (mc x))) (mc x) t.

(** Contract of scipy's svds for an operator that multiplies by a matrix: it refuses ranks
    above the size of the matrix and is exact at full rank. *)
Definition svds_op_ok (svds : linop R -> nat -> res (mat R * list R * mat R)) : Prop :=
  forall m n (X : 'M[R]_(m, n)) op k t, op_is X op -> svds op k = Ok t ->
    [/\ (k <= minn m n)%N, svd_factors m k n t & k = minn m n -> product m k n t = X].

(** The tensor represented by a triple of factors and a core. *)
Definition rep3 (fs : @factors R) (core : ten R) (c : cell) : R := rep (factor fs 0) (factor fs 1) (factor fs 2) core c.

(** Well-formed factors and core around the mode [n] with the other modes [a], [b]. *)
Definition factors_at (n a b nn rn na ra nb rb : nat) (fs : @factors R) (core : ten R) : Prop :=
  [/\ shape nn rn (factor fs n), shape na ra (factor fs a), shape nb rb (factor fs b), twf core
    & [/\ axis (tshape core) n = rn, axis (tshape core) a = ra & axis (tshape core) b = rb]].

(** Orthogonal projection on the columns of [f]. *)
Definition proj n r (f : mat R) : 'M[R]_n := mx n r f *m (mx n r f)^T.

(** The old tensor [t] in the leading corner of the first two modes, the new data in the
    opposite corner, its third mode multiplied by the attention and projected on [w]. *)
Definition block_tensor (n0 n1 n2 r2 : nat) (t data : cell -> R) (att : option (mat R)) (w : mat R) (c : cell) : R :=
  let '(i, j, k) := c in
  if (i < n0)%N && (j < n1)%N then t c
  else if (n0 <= i)%N && (n1 <= j)%N
  then \sum_(l < n2) data ((i - n0)%N, (j - n1)%N, l : nat) * \sum_(x < r2) (attm n2 att *m mx n2 r2 w) l x * mget 0 w k x
  else 0.
End Spec.
