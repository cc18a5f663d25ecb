(** Specification vocabulary for the matrix algorithms: numpy arrays read as mathcomp
    matrices, and the contracts of QR and SVD. *)
From Verif Require Import Prelude Tensor_model Matrix_model Attention_model LinAlg_model.
Set Warnings "-notation-overridden".
From mathcomp Require Import all_ssreflect all_algebra.
Set Implicit Arguments.
Unset Strict Implicit.
Unset Printing Implicit Defensive.
Import GRing.Theory.
Local Open Scope ring_scope.

Section Spec.
Variable R : comRingType.

(** The array [a] as an m x n matrix, and its shape. *)
Definition mx (m n : nat) (a : mat R) : 'M[R]_(m, n) := \matrix_(i < m, j < n) mget 0 a i j.
Definition shape (m n : nat) (a : mat R) : Prop := mr a = m /\ mc a = n.

(** Diagonal matrix of a vector, and the matrix of a middle factor. *)
Definition dg (k : nat) (s : list R) : 'M[R]_k := diag_mx (\row_j nth 0 s j).
Definition smx (k l : nat) (s : middle R) : 'M[R]_(k, l) :=
  match s with SVec v => \matrix_(i, j) (nth 0 v i *+ (i == j :> nat)) | SMat m => mx k l m end.
Definition sshape (k l : nat) (s : middle R) : Prop :=
  match s with SVec v => size v = k /\ size v = l | SMat m => shape k l m end.

(** Contract of [np.linalg.qr(x)] (mode reduced) whenever it returns. *)
Definition qr_ok (qr : mat R -> res (mat R * mat R)) : Prop :=
  forall x q r, qr x = Ok (q, r) ->
    let k := minn (mr x) (mc x) in
    [/\ shape (mr x) k q, shape k (mc x) r,
        mx (mr x) k q *m mx k (mc x) r = mx (mr x) (mc x) x
      & (mx (mr x) k q)^T *m mx (mr x) k q = 1%:M].

(** Contract of [np.linalg.svd(x, full_matrices=False)] whenever it returns. *)
Definition svd_ok (svd : mat R -> res (mat R * list R * mat R)) : Prop :=
  forall x u s vt, svd x = Ok (u, s, vt) ->
    let k := minn (mr x) (mc x) in
    [/\ shape (mr x) k u, size s = k, shape k (mc x) vt,
        mx (mr x) k u *m dg k s *m mx k (mc x) vt = mx (mr x) (mc x) x
      & (mx (mr x) k u)^T *m mx (mr x) k u = 1%:M /\ mx k (mc x) vt *m (mx k (mc x) vt)^T = 1%:M].

(** [randn r c] has the requested shape. *)
Definition randn_ok (randn : nat -> nat -> mat R) : Prop := forall r c, shape r c (randn r c).

(** Shapes returned by a truncated SVD routine. *)
Definition rsvd_ok (rsvd : mat R -> nat -> res (mat R * list R * mat R)) : Prop :=
  forall x rank u s vt, rsvd x rank = Ok (u, s, vt) ->
    exists l, [/\ shape (mr x) l u, size s = l & shape l (mc x) vt].

(** Contract of [np.argsort(s)] for the order [le]: a permutation of the positions that
    lists the values in ascending order. *)
Definition argsort_ok (le : R -> R -> bool) (argsort : list R -> list nat) : Prop :=
  forall s, perm_eq (argsort s) (iota 0 (size s)) /\
    forall i j, (i < j < size s)%N -> le (nth 0 s (nth 0%N (argsort s) i)) (nth 0 s (nth 0%N (argsort s) j)).

(** (x x^T)^t z. *)
Definition powers m n k (x : 'M[R]_(m, n)) (z : 'M[R]_(m, k)) (t : nat) : 'M[R]_(m, k) :=
  iter t (fun y => x *m (x^T *m y)) z.
End Spec.
