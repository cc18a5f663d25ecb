(** Model of the matrix algorithms source/psi.py and source/random_svd.py and of the
    embedding initialisation in source/models/psi.py, with the numpy operations they use.
    Arrays carry their shapes at run time and shape errors are ValueError; arithmetic is
    an arbitrary type.  QR, SVD, random numbers and sorting are arguments. *)
From Coq Require Import ZArith List Bool Lia.
From Verif Require Import Prelude Tensor_model Matrix_model Attention_model.
Import ListNotations.
Open Scope nat_scope.

Section Np.
  Context {A : Type} (zero one : A) (add mul sub : A -> A -> A).
  Notation mget := (mget zero).
  Notation dot := (dot zero add mul).
  Notation transpose := (transpose zero).
  Notation eye := (eye zero one).

  (** numpy broadcasting of one axis and of a matrix index. *)
  Definition bdim (a b : nat) : res nat :=
    if a =? b then Ok a else if a =? 1 then Ok b else if b =? 1 then Ok a else Err ValueError.
  Definition bget (m : mat A) (i j : nat) : A :=
    mget m (if mr m =? 1 then 0 else i) (if mc m =? 1 then 0 else j).
  Definition broadcast (f : A -> A -> A) (a b : mat A) : res (mat A) :=
    do r <- bdim (mr a) (mr b);
    do c <- bdim (mc a) (mc b);
    Ok (build r c (fun i j => f (bget a i j) (bget b i j))).
  (** [a + b], [a - b]. *)
  Definition madd : mat A -> mat A -> res (mat A) := broadcast add.
  Definition msub : mat A -> mat A -> res (mat A) := broadcast sub.

  (** [np.diag(s)] for a vector. *)
  Definition np_diag (s : list A) : mat A :=
    build (length s) (length s) (fun i j => if i =? j then nth i s zero else zero).

  (** [np.zeros((r, c))]. *)
  Definition zeros (r c : nat) : mat A := build r c (fun _ _ => zero).

  (** [np.concatenate([a, b], axis=1)]. *)
  Definition hstack (a b : mat A) : res (mat A) :=
    if mr a =? mr b
    then Ok (build (mr a) (mc a + mc b) (fun i j => if j <? mc a then mget a i j else mget b i (j - mc a)))
    else Err ValueError.

  (** [scipy.linalg.block_diag(a, b)]. *)
  Definition block_diag (a b : mat A) : mat A :=
    build (mr a + mr b) (mc a + mc b) (fun i j =>
      if (i <? mr a) && (j <? mc a) then mget a i j
      else if (mr a <=? i) && (mc a <=? j) then mget b (i - mr a) (j - mc a)
      else zero).

  (** [m[r0:r0+rl, k0:k0+cl] = b] for a slice inside [m]: [b] is broadcast to the slice. *)
  Definition set_block (m : mat A) (r0 rl k0 cl : nat) (b : mat A) : res (mat A) :=
    if ((mr b =? rl) || (mr b =? 1)) && ((mc b =? cl) || (mc b =? 1))
    then Ok (build (mr m) (mc m) (fun i j =>
           if (r0 <=? i) && (i <? r0 + rl) && (k0 <=? j) && (j <? k0 + cl)
           then bget b (i - r0) (j - k0) else mget m i j))
    else Err ValueError.

  (** [m[:, idx]] for non-negative indices; [m[:, :k]]; [m[:k, :]]. *)
  Definition take_cols (m : mat A) (idx : list nat) : res (mat A) :=
    if forallb (fun j => j <? mc m) idx
    then Ok (build (mr m) (length idx) (fun i j => mget m i (nth j idx 0)))
    else Err IndexError.
  Definition first_cols (k : nat) (m : mat A) : mat A := build (mr m) (Nat.min k (mc m)) (mget m).
  Definition first_rows (k : nat) (m : mat A) : mat A := build (Nat.min k (mr m)) (mc m) (mget m).
  Definition take_vals (s : list A) (idx : list nat) : res (list A) :=
    mapM (fun i => match nth_error s i with Some x => Ok x | None => Err IndexError end) idx.

  (** The middle factor: a vector of singular values or a general matrix. *)
  Inductive middle := SVec (s : list A) | SMat (s : mat A).
  (** [np.diag(s) if s.ndim == 1 else s]. *)
  Definition as_matrix (s : middle) : mat A := match s with SVec v => np_diag v | SMat m => m end.

  (** External: [np.linalg.qr] (reduced), [np.linalg.svd] (reduced), [randn]. *)
  Variable qr : mat A -> res (mat A * mat A).
  Variable svd : mat A -> res (mat A * list A * mat A).
  Variable randn : nat -> nat -> mat A.

  (** source/psi.py:11-52 [psi_step]. *)
  Definition psi_step (u : mat A) (s : middle) (vt da : mat A) : res (mat A * mat A * mat A) :=
    let s' := as_matrix s in
    do da_v <- dot da (transpose vt);
    do us <- dot u s';
    do k1 <- madd us da_v;
    do '(u1, s1) <- qr k1;
    do p <- dot (transpose u1) da_v;
    do s0 <- msub s1 p;
    do a <- dot (transpose vt) (transpose s0);
    do b <- dot (transpose da) u1;
    do l1 <- madd a b;
    do '(v1, s1t) <- qr l1;
    Ok (u1, transpose s1t, transpose v1).

  (** source/random_svd.py:46-47: the power iterations. *)
  Fixpoint power_loop (x z : mat A) (n : nat) : res (mat A) :=
    match n with
    | O => Ok z
    | S n' => do t <- dot (transpose x) z; do z' <- dot x t; power_loop x z' n'
    end.

  (** source/random_svd.py:8-53 [random_svd] with [full_matrices=False]: the factors
      before and after the final truncation. *)
  Definition random_svd_full (x : mat A) (rank n_power_iter oversampling : nat)
    : res (mat A * list A * mat A) :=
    let p := randn (mc x) (rank + oversampling) in
    do z0 <- dot x p;
    do z <- power_loop x z0 n_power_iter;
    do '(q, _) <- qr z;
    do y <- dot (transpose q) x;
    do '(uy, s, vt) <- svd y;
    do u <- dot q uy;
    Ok (u, s, vt).
  Definition random_svd (x : mat A) (rank n_power_iter oversampling : nat)
    : res (mat A * list A * mat A) :=
    do '(u, s, vt) <- random_svd_full x rank n_power_iter oversampling;
    Ok (first_cols rank u, firstn rank s, first_rows rank vt).

  (** [uj[:, 0].dot(uj[:, -1])]. *)
  Definition orth_err (m : mat A) : res A :=
    if mc m =? 0 then Err IndexError
    else Ok (sum_upto zero add (mr m) (fun i => mul (mget m i 0) (mget m i (mc m - 1)))).

  (** [rsvd x rank]: [random_svd] with the remaining parameters fixed;
      [exceeds_eps x]: [x > ORTH_EPS]; [argsort]: [np.argsort]. *)
  Variable rsvd : mat A -> nat -> res (mat A * list A * mat A).
  Variable exceeds_eps : A -> bool.
  Variable argsort : list A -> list nat.

  (** source/psi.py:153-184: the three factors handed to the inner SVD. *)
  Definition new_vectors_factors (u : mat A) (s : middle) (vt nv : mat A) : res (mat A * mat A * mat A) :=
    let rank := mc u in
    let q := mc vt in
    let nc := mc nv in
    let s' := as_matrix s in
    do projection <- dot (transpose u) nv;
    do up <- dot u projection;
    do complement <- msub nv up;
    do '(j, k) <- qr complement;
    do uj <- hstack u j;
    do vi0 <- set_block (zeros (q + nc) (rank + nc)) 0 q 0 rank (transpose vt);
    do vi <- set_block vi0 q nc rank nc (eye nc);
    do dq0 <- set_block (zeros (rank + nc) (rank + nc)) 0 rank 0 rank s';
    do dq1 <- set_block dq0 0 rank rank nc projection;
    do dq <- set_block dq1 rank nc rank nc k;
    do err <- orth_err uj;
    if exceeds_eps err then
      do '(uj', k') <- qr uj;
      do dq' <- dot k' dq;
      Ok (uj', dq', vi)
    else Ok (uj, dq, vi).

  (** source/psi.py:108-190 [update_svd_new_vectors]. *)
  Definition update_svd_new_vectors (u : mat A) (s : middle) (vt nv : mat A) : res (mat A * list A * mat A) :=
    do '(uj, dq, vi) <- new_vectors_factors u s vt nv;
    do '(u1, s2, vt1) <- rsvd dq (mc u);
    do u2 <- dot uj u1;
    do v2 <- dot vi (transpose vt1);
    Ok (u2, s2, transpose v2).

  (** source/psi.py:54-106 [update_svd_new_submatrix]. *)
  Definition update_svd_new_submatrix (u : mat A) (s : middle) (vt nm : mat A) : res (mat A * list A * mat A) :=
    let rank := mc u in
    do '(u1, s1, v1t) <- svd nm;
    let u2 := block_diag u u1 in
    let v2 := block_diag (transpose vt) (transpose v1t) in
    match s with
    | SVec s =>
      let s2 := s ++ s1 in
      let mask := firstn rank (rev (argsort s2)) in
      do u' <- take_cols u2 mask;
      do s' <- take_vals s2 mask;
      do v' <- take_cols v2 mask;
      Ok (u', s', transpose v')
    | SMat s =>
      let s2 := block_diag s (np_diag s1) in
      do '(u', s', vt') <- rsvd s2 rank;
      do u'' <- dot u2 u';
      do v'' <- dot v2 (transpose vt');
      Ok (u'', s', transpose v'')
    end.

  (** source/models/psi.py:105-116: zero rows below the factor. *)
  Definition zero_rows (f : mat A) (n : nat) : res (mat A) :=
    set_block (zeros (mr f + n) (mc f)) 0 (mr f) 0 (mc f) f.
  Inductive emb_mode := EUsers | EItems.
  Definition psi_add_zero (mode : emb_mode) (n : nat) (u : mat A) (s : middle) (vt : mat A)
    : res (mat A * middle * mat A) :=
    match mode with
    | EUsers => do u' <- zero_rows u n; Ok (u', s, vt)
    | EItems => do v' <- zero_rows (transpose vt) n; Ok (u, s, transpose v')
    end.

  (** source/models/psi.py:118-137: random rows below the factor, then QR; [normal r c] is
      the random matrix. *)
  Variable normal : nat -> nat -> mat A.
  Definition random_rows (f : mat A) (n : nat) : res (mat A * mat A) :=
    do t <- set_block (normal (mr f + n) (mc f)) 0 (mr f) 0 (mc f) f;
    qr t.
  Definition psi_add_random (mode : emb_mode) (n : nat) (u : mat A) (s : middle) (vt : mat A)
    : res (mat A * middle * mat A) :=
    match mode with
    | EUsers =>
      do '(t, r) <- random_rows u n;
      do s' <- dot r (as_matrix s);
      Ok (t, SMat s', vt)
    | EItems =>
      do '(t, r) <- random_rows (transpose vt) n;
      do s' <- dot r (as_matrix s);
      Ok (u, SMat s', transpose t)
    end.
End Np.
Arguments middle : clear implicits.
Arguments SVec {A} s.
Arguments SMat {A} s.
