(** Specification vocabulary for the step-by-step experiments. *)
From Verif Require Import Prelude Tensor_model Matrix_model Attention_model LinAlg_model Steps_model.
Set Warnings "-notation-overridden".
From mathcomp Require Import all_ssreflect all_algebra.
From Verif Require Import LinAlg_spec Upd_spec Exact_spec.
Set Implicit Arguments.
Unset Strict Implicit.
Unset Printing Implicit Defensive.
Import GRing.Theory.
Local Open Scope ring_scope.

Section Spec.
Variable R : realFieldType.

(** What is needed of the square root on non-negative numbers: not negative, and zero only at
    zero. *)
Definition sqrt_ok (sqrt : R -> R) : Prop := forall x, 0 <= x -> 0 <= sqrt x /\ (sqrt x = 0 <-> x = 0).

(** The sum of the squares of the cells. *)
Definition normsq m n (M : 'M[R]_(m, n)) : R := \sum_i \sum_j M i j ^+ 2.

(** The leading [q] slices of an n x n matrix along the axis. *)
Definition leading (axis : ax) (n q : nat) (c : mat R) : 'M[R]_(match axis with Rows => q | Cols => n end,
                                                               match axis with Rows => n | Cols => q end) := mx _ _ c.

(** A recorded error and shape for a target: it is zero only if the target fits in the rank
    [r], and in the good case whenever it does. *)
Definition measures m n (x : option R * (nat * nat)) (target : 'M[R]_(m, n)) (r : nat) (good : Prop) : Prop :=
  x.2 = (m, n) /\
  exists2 e, x.1 = Some e & [/\ 0 <= e, e = 0 -> (\rank target <= r)%N & good -> (\rank target <= r)%N -> e = 0].

(** One of the routines called by an experiment raises [e]. *)
Definition routine_raises (qr : mat R -> res (mat R * mat R)) (svd : mat R -> res (mat R * list R * mat R))
    (rsvd : mat R -> nat -> res (mat R * list R * mat R)) (e : exn) : Prop :=
  (exists x, qr x = Err e) \/ (exists x, svd x = Err e) \/ (exists x r, rsvd x r = Err e).

(** A truncated SVD routine with non-negative singular values. *)
Definition nonneg_rsvd (rsvd : mat R -> nat -> res (mat R * list R * mat R)) : Prop :=
  forall x rank t, rsvd x rank = Ok t -> all (fun y => 0 <= y) t.1.2.

(** The first [k] diagonal blocks of an n x n matrix, zero elsewhere: block [b] starts at
    [st b]. *)
Definition diagonal_part (st : nat -> nat) (k : nat) (c : mat R) (N : nat) : 'M[R]_N :=
  \matrix_(i, j) (if has (fun b => (st b <= i < st b.+1)%N && (st b <= j < st b.+1)%N) (iota 0 k) then mget 0 c i j else 0).

(** The root of the mean squared error of the approximation [Y] of [M] over the mean square
    of [M] plus [eps]. *)
Definition relative_error (sqrt : R -> R) (eps : R) m n (Y M : 'M[R]_(m, n)) : R :=
  sqrt ((normsq (Y - M) / (m * n)%:R) / (normsq M / (m * n)%:R + eps)).

(** One step from the matrix [M] approximated by [Y] to the matrix [M'] approximated by [Y'],
    with the error recorded: the approximation stays in the rank, its error moves by at most
    the change of the matrix, and it stays exact when the rows of [M] see all of [M']. *)
Definition follows (sqrt : R -> R) (eps : R) m n (rank : nat) (M Y M' Y' : 'M[R]_(m, n)) (e : option R) : Prop :=
  [/\ e = Some (relative_error sqrt eps Y' M'), (\rank Y' <= rank)%N,
      normsq ((M' - Y') - (M - Y)) <= normsq (M' - M)
    & Y = M -> \rank (M' *m M^T) = \rank M' -> Y' = M'].
Fixpoint followed (sqrt : R -> R) (eps : R) m n (rank : nat) (M Y : 'M[R]_(m, n)) (l : list (mat R)) (es : list (option R)) : Prop :=
  match l, es with
  | [::], [::] => True
  | b :: l', e :: es' => exists Y', follows sqrt eps rank M Y (mx m n b) Y' e /\ followed sqrt eps rank (mx m n b) Y' l' es'
  | _, _ => False
  end.
(** Each matrix keeps its rank when seen from the rows of the one before it. *)
Fixpoint overlap m n (M : 'M[R]_(m, n)) (l : list (mat R)) : Prop :=
  match l with
  | [::] => True
  | b :: l' => \rank (mx m n b *m M^T) = \rank (mx m n b) /\ overlap (mx m n b) l'
  end.

(** [k] explicit Euler steps of Q' = T Q from the identity. *)
Definition euler n (h : R) (T : 'M[R]_n) (k : nat) : 'M[R]_n := iter k (fun Q => (1%:M + h *: T) *m Q) 1%:M.

(** The matrix of the numerical experiment before it is rotated. *)
Definition mixed n (a1 a2 : mat R) (x : R) : 'M[R]_n := mx n n a1 + x *: mx n n a2.
End Spec.
