(** Model of source/matrix_operations.py, svd2mtx of source/random_svd.py and the block
    splitting of source/psi_experiments/psi_step_experiments.py.  Arrays are those of
    Tensor_model; arithmetic is an arbitrary type.  Simplifications: square roots and
    the division by the norm are left out; ratios are exact rationals. *)
From Coq Require Import ZArith QArith List Bool Lia.
From Verif Require Import Prelude Tensor_model.
Import ListNotations.
Open Scope nat_scope.

Section Elements.
  Context {A : Type} (zero : A) (add mul sub : A -> A -> A).

  (** matrix_operations.py:14-28 [get_svd_element]. *)
  Definition get_svd_element (i j : nat) (u : mat A) (s : list A) (vt : mat A) : res A :=
    if (i <? mr u) && (j <? mc vt) && (mc u <=? length s) && (mc u <=? mr vt)
    then Ok (for_ (mc u) (fun r acc => add acc (mul (mul (mget zero u i r) (nth r s zero)) (mget zero vt r j))) zero)
    else Err OutOfBounds.

  (** matrix_operations.py:30-43 [get_mf_element]. *)
  Definition get_mf_element (i j : nat) (u vt : mat A) : res A :=
    if (i <? mr u) && (j <? mc vt) && (mc u <=? mr vt)
    then Ok (for_ (mc u) (fun r acc => add acc (mul (mget zero u i r) (mget zero vt r j))) zero)
    else Err OutOfBounds.

  (** The matrix with the given cells. *)
  Definition build (r c : nat) (f : nat -> nat -> A) : mat A :=
    mkMat r c (flat_map (fun i => map (f i) (seq 0 c)) (seq 0 r)).

  (** [a.dot(b)]. *)
  Definition dot (a b : mat A) : res (mat A) :=
    if mc a =? mr b
    then Ok (build (mr a) (mc b) (fun i j => sum_upto zero add (mc a) (fun k => mul (mget zero a i k) (mget zero b k j))))
    else Err ValueError.

  (** [u * s] for a matrix and a vector: numpy broadcasting along the last axis. *)
  Definition scale_columns (u : mat A) (s : list A) : res (mat A) :=
    if length s =? mc u then Ok (build (mr u) (mc u) (fun i k => mul (mget zero u i k) (nth k s zero)))
    else if length s =? 1 then Ok (build (mr u) (mc u) (fun i k => mul (mget zero u i k) (nth 0 s zero)))
    else if mc u =? 1 then Ok (build (mr u) (length s) (fun i k => mul (mget zero u i 0) (nth k s zero)))
    else Err ValueError.

  (** random_svd.py:99-118 [svd2mtx]. *)
  Definition svd2mtx (u : mat A) (s : list A) (v : mat A) : res (mat A) :=
    do us <- scale_columns u s; dot us v.

  (** The loop of [_sqrt_err] (matrix_operations.py:56-58, 60-62): the sum below the
      square root, with a function for the element. *)
  Definition err_loop (elt : nat -> nat -> res A) (inds : list (nat * nat)) (vals : list A) : res A :=
    if length inds <=? length vals
    then fold_left (fun acc e =>
           do r <- acc;
           do x <- elt (fst (fst e)) (snd (fst e));
           let d := sub (snd e) x in
           Ok (add r (mul d d))) (combine inds vals) (Ok zero)
    else Err OutOfBounds.

  (** matrix_operations.py:45-63 [_sqrt_err], [s.ndim == 1] and [s.ndim == 2]. *)
  Definition sq_err_1 (inds : list (nat * nat)) (vals : list A) (u : mat A) (s : list A) (vt : mat A) : res A :=
    err_loop (fun i j => get_svd_element i j u s vt) inds vals.
  Definition sq_err_2 (inds : list (nat * nat)) (vals : list A) (u s vt : mat A) : res A :=
    do vt' <- dot s vt;
    err_loop (fun i j => get_mf_element i j u vt') inds vals.
End Elements.

(** Python's [int(q)]: truncation. *)
Definition int_of (q : Q) : Z := Z.quot (Qnum q) (Zpos (Qden q)).

(** [np.arange(start, stop, step)] for a positive step. *)
Definition arange (start stop step : nat) : list nat :=
  map (fun k => start + k * step) (seq 0 ((stop - start + (step - 1)) / step)).

(** [np.array_split(l, indices)] along the axis whose slices are [l]: the pieces
    between consecutive division points. *)
Fixpoint pieces {X} (l : list X) (st : nat) (points : list nat) : list (list X) :=
  match points with
  | [] => []
  | p :: r => firstn (p - st) (skipn st l) :: pieces l p r
  end.
Definition array_split {X} (l : list X) (indices : list nat) : list (list X) :=
  pieces l 0 (indices ++ [length l]).

(** matrix_operations.py:106-139 [split_matrix] on the list of slices along the axis,
    for ratios that give [0 <= ind_first <= ndim] and [0 <= step]; np.arange raises
    ZeroDivisionError for step 0. *)
Definition split_matrix {X} (slices : list X) (ratio_first ratio_next : Q) : res (list (list X)) :=
  let ndim := length slices in
  let ind_first := int_of (inject_Z (Z.of_nat ndim) * ratio_first) in
  let step := int_of (inject_Z (Z.of_nat ndim - ind_first) * ratio_next) in
  if (step =? 0)%Z then Err ZeroDivisionError
  else Ok (array_split slices (arange (Z.to_nat ind_first) ndim (Z.to_nat step))).

Section Blocks.
  Context {A : Type} (zero : A).

  (** [mtx[i:i + w, i:i + w]]. *)
  Definition diag_block (m : mat A) (i w : nat) : mat A :=
    build (Nat.min w (mr m - i)) (Nat.min w (mc m - i)) (fun x y => mget zero m (i + x) (i + y)).

  (** psi_step_experiments.py:72-88 [split_mtx_block_diag], for the same range of
      ratios. *)
  Definition split_mtx_block_diag (m : mat A) (ratio_first ratio_next : Q) : res (list (mat A)) :=
    let ndim := mc m in
    let ind_first := int_of (inject_Z (Z.of_nat ndim) * ratio_first) in
    let step := int_of (inject_Z (Z.of_nat ndim - ind_first) * ratio_next) in
    if (step =? 0)%Z then Err ZeroDivisionError
    else
      let i := Z.to_nat ind_first in
      let w := Z.to_nat step in
      Ok (fst (for_ ((ndim - i) / w) (fun _ s => (fst s ++ [diag_block m (snd s) w], snd s + w))
                 ([diag_block m 0 i], i))).
End Blocks.
