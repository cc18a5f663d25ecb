(** Specification vocabulary for the numerical PSI model: the score matrix of a state, the
    matrix of a set of interactions, and when an update can be lossless. *)
From Coq Require Import ZArith.
From Verif Require Import Prelude DataPrep_model DataPrep_spec Psi_model Psi_spec Tensor_model Matrix_model Attention_model LinAlg_model Num_model.
Set Warnings "-notation-overridden".
From mathcomp Require Import all_ssreflect all_algebra.
From Verif Require Import LinAlg_spec Upd_spec Exact_spec.
Set Implicit Arguments.
Unset Strict Implicit.
Unset Printing Implicit Defensive.
Import GRing.Theory.
Local Open Scope ring_scope.
Notation irow := DataPrep_model.row.

Definition users_of (st : psi_state) : nat := Z.to_nat (ps_n_users st).
Definition items_of (st : psi_state) : nat := Z.to_nat (ps_n_items st).

Section Spec.
Variable R : comRingType.
Implicit Type f : mat R * middle R * mat R.

(** Factors of rank [r] for [m] users and [n] items; orthonormal factors; the score matrix. *)
Definition factors_ok r m n f : Prop :=
  [/\ shape m r f.1.1, sshape r r f.1.2, shape r n f.2 & (0 < r <= minn m n)%N].
Definition ortho r m n f : Prop :=
  (mx m r f.1.1)^T *m mx m r f.1.1 = 1%:M /\ mx r n f.2 *m (mx r n f.2)^T = 1%:M.
Definition score_mx r m n f : 'M[R]_(m, n) := mx m r f.1.1 *m smx r r f.1.2 *m mx r n f.2.

(** The same with the middle factor transposed. *)
Definition turned_mx r m n f : 'M[R]_(m, n) := mx m r f.1.1 *m (smx r r f.1.2)^T *m mx r n f.2.

(** A state whose mappings and factors agree. *)
Definition model_ok r (x : @num_state R) : Prop :=
  aligned (nm_book x) /\ factors_ok r (users_of (nm_book x)) (items_of (nm_book x)) (nm_f x).

(** The score of a user and an item by their indices, 0 outside the factors. *)
Definition at_mx m n (M : 'M[R]_(m, n)) (i j : nat) : R :=
  match insub i, insub j with Some i', Some j' => M i' j' | _, _ => 0 end.
Definition score r (x : @num_state R) : nat -> nat -> R :=
  at_mx (score_mx r (users_of (nm_book x)) (items_of (nm_book x)) (nm_f x)).

(** The total relevance of the interactions at a pair of indices, for the mappings of [st]. *)
Variable of_rel : Z -> R.
Definition hits (st : psi_state) (i j : nat) (x : irow) : bool :=
  match fu st (r_user x), fi st (r_item x) with
  | Some a, Some b => Z.eqb a (Z.of_nat i) && Z.eqb b (Z.of_nat j)
  | _, _ => false end.
Definition total (st : psi_state) (rows : list irow) (i j : nat) : R :=
  \sum_(x <- rows | hits st i j x) of_rel (r_rel x).

(** The m x n matrix of a function of the indices. *)
Definition fmx m n (h : nat -> nat -> R) : 'M[R]_(m, n) := \matrix_(i, j) h i j.

(** Contract of scipy's svds for a matrix: orthonormal factors of the requested rank. *)
Definition svds_mat_ok (svds : mat R -> nat -> res (mat R * list R * mat R)) : Prop :=
  forall x k t, svds x k = Ok t -> svd_factors (mr x) k (mc x) t.

(** One of the external routines raises [e] on some input. *)
Definition routine_raises (qr : mat R -> res (mat R * mat R)) (svd : mat R -> res (mat R * list R * mat R))
    (rsvd : mat R -> nat -> res (mat R * list R * mat R)) r (e : exn) : Prop :=
  (exists x, qr x = Err e) \/ (exists x, svd x = Err e) \/ (exists x, rsvd x r = Err e).
End Spec.

(** The rows whose values enter before the last step: all but the last table for the
    incremental SVD, the rows of new users with new items for zero embeddings, none with
    the integrator option. *)
Definition early_rows (cfg : psi_cfg) (st : psi_state) (data : list irow) : list irow :=
  match cf_init cfg, cf_integrator cfg with
  | INone, _ => part_new st data ++ part_new_users st data ++ part_new_items st data
  | _, false => part_new st data
  | _, true => [::]
  end.

Section Loss.
Variable R : realFieldType.
Variable of_rel : Z -> R.

(** Conditions on the matrices to be represented under which an update of [x] by [data]
    leading to the mappings of [st'] loses nothing: they fit in the rank after each step,
    the incremental SVD has no zero singular values, the middle factor is symmetric when it
    is used for new users, and the last step meets the exactness condition of the
    projector-splitting integrator. *)
Definition lossless_update cfg r (x : num_state) (st' : psi_state) (data : list irow) : Prop :=
  let st := nm_book x in
  let T rows := fmx (users_of st') (items_of st') (fun i j => score r x i j + total of_rel st' rows i j) in
  let p1 := part_new st data in let p2 := part_new_users st data in let p3 := part_new_items st data in
  match cf_init cfg with
  | INone =>
    [/\ (\rank (T p1) <= r)%N,
        p2 <> [::] -> \rank (T (p1 ++ p2)) = r /\ (p1 = [::] -> (smx r r (nm_f x).1.2)^T = smx r r (nm_f x).1.2)
      & p3 <> [::] -> \rank (T (p1 ++ p2 ++ p3)) = r]
  | IZero => (\rank (T (early_rows cfg st data)) <= r)%N
  | IRandom => False
  end /\ \rank (T data *m (T (early_rows cfg st data))^T) = \rank (T data).

(** The entries of a middle factor kept as a vector are non-negative. *)
Definition nonneg_middle (s : middle R) : bool := match s with SVec v => all (fun y => 0 <= y) v | SMat _ => true end.

(** Every update of the stream loses nothing. *)
Fixpoint lossless_stream cfg r (upd : num_state -> list irow -> res num_state) (x : num_state) (chunks : list (list irow)) : Prop :=
  match chunks with
  | [::] => True
  | c :: l => exists x1, [/\ upd x c = Ok x1, lossless_update cfg r x (nm_book x1) c & lossless_stream cfg r upd x1 l]
  end.
End Loss.
