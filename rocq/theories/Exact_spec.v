(** Specification vocabulary for updates that lose nothing: matrices of bounded rank and
    truncated SVD routines that are exact on them. *)
From Verif Require Import Prelude Tensor_model Tensor_spec Matrix_model Attention_model LinAlg_model Hooi_model Upd_model.
Set Warnings "-notation-overridden".
From mathcomp Require Import all_ssreflect all_algebra.
From Verif Require Import LinAlg_spec Tucker_spec Hooi_spec Upd_spec.
Set Implicit Arguments.
Unset Strict Implicit.
Unset Printing Implicit Defensive.
Import GRing.Theory.
Local Open Scope ring_scope.

Section Spec.
Variable R : comRingType.

(** [M] is a product with inner dimension [r]. *)
Definition low_rank m n (r : nat) (M : 'M[R]_(m, n)) : Prop :=
  exists (X : 'M[R]_(m, r)) (Y : 'M[R]_(r, n)), M = X *m Y.

(** A truncated SVD routine that is exact on the matrices that fit in the rank. *)
Definition lossless (rsvd : mat R -> nat -> res (mat R * list R * mat R)) : Prop :=
  forall x rank t, rsvd x rank = Ok t -> low_rank rank (mx (mr x) (mc x) x) ->
    product (mr x) (size t.1.2) (mc x) t = mx (mr x) (mc x) x.

(** Coordinate-format matrix as a dense one; a sparse SVD whose left vectors span the
    columns of every matrix that fits in the rank. *)
Definition coo_mx m n (x : @coo R) : 'M[R]_(m, n) :=
  \matrix_(i, j) \sum_(e <- coo_entries x | (e.1.1 == i) && (e.1.2 == j)) e.2.
Definition lossless_left (svds_u : @coo R -> nat -> res (mat R)) : Prop :=
  forall x rank u, svds_u x rank = Ok u ->
    let X := coo_mx (coo_r x) (coo_c x) x in
    low_rank rank X -> proj (coo_r x) rank u *m X = X.

(** The three unfoldings of the tensor fit in the ranks. *)
Definition fits n0 r0 n1 r1 n2 r2 (t : cell -> R) : Prop :=
  [/\ low_rank r0 (unf 0 1 n0 n1 n2 t), low_rank r1 (unf 1 0 n1 n0 n2 t) & low_rank r2 (unf 2 0 n2 n0 n1 t)].
End Spec.

(** Singular values are non-negative. *)
Definition nonneg_svd (R : realFieldType) (svd : mat R -> res (mat R * list R * mat R)) : Prop :=
  forall x u s vt, svd x = Ok (u, s, vt) -> all (fun y => 0 <= y) s.

(** Singular values are non-negative and in descending order. *)
Definition descending_svd (R : realFieldType) (svd : mat R -> res (mat R * list R * mat R)) : Prop :=
  nonneg_svd svd /\
  forall x u s vt, svd x = Ok (u, s, vt) -> forall i j, (i <= j < size s)%N -> nth 0 s j <= nth 0 s i.
