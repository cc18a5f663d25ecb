(** Model of the relative errors and of the Hilbert tensor: source/tensor_operations.py 392-402 and
    420-429, source/matrix_operations.py 66-74.  Arrays as in Tensor_model; arithmetic, division,
    the square root and EPS are arbitrary. *)
From Coq Require Import ZArith List.
From Verif Require Import Prelude Tensor_model Matrix_model.
Import ListNotations.
Open Scope nat_scope.

Section Errors.
  Context {A : Type} (zero one : A) (add mul sub div : A -> A -> A) (of_nat : nat -> A) (sqrt : A -> A) (eps : A).

  (** [result / np.sqrt((vals**2).sum() + EPS)] with [result] the root of [s]
      (tensor_operations.py:428-429, matrix_operations.py:73-74). *)
  Definition relative (s : A) (vals : list A) : A :=
    div (sqrt s) (sqrt (add (fold_left (fun r v => add r (mul v v)) vals zero) eps)).

  (** tensor_operations.py:420-429 [sqrt_err_relative]. *)
  Definition sqrt_err_relative (inds : list coord) (vals : list A) (u1 u2 u3 : mat A) (core : ten A) : res A :=
    do s <- sq_err zero add mul sub inds vals u1 u2 u3 core;
    Ok (relative s vals).

  (** matrix_operations.py:66-74 [sqrt_err_relative], [s.ndim == 1] and [s.ndim == 2]. *)
  Definition sqrt_err_relative_1 (inds : list (nat * nat)) (vals : list A) (u : mat A) (s : list A) (vt : mat A) : res A :=
    do x <- sq_err_1 zero add mul sub inds vals u s vt;
    Ok (relative x vals).
  Definition sqrt_err_relative_2 (inds : list (nat * nat)) (vals : list A) (u s vt : mat A) : res A :=
    do x <- sq_err_2 zero add mul sub inds vals u s vt;
    Ok (relative x vals).

  (** tensor_operations.py:392-402 [gen_hilbert_tensor]. *)
  Definition gen_hilbert_tensor (shape : coord) : list coord * list A :=
    for_ (c0 shape) (fun i =>
      for_ (c1 shape) (fun j =>
        for_ (c2 shape) (fun k s =>
          (fst s ++ [(i, j, k)], snd s ++ [div one (of_nat (i + j + k + 1))])))) ([], []).
End Errors.
