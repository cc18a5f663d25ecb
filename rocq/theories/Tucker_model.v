(** Model of source/tucker_integrator.py and of the embedding initialisation in
    source/models/tirec_accelerated.py.  QR, SVD and random numbers are arguments. *)
From Coq Require Import ZArith List Bool Lia.
From Verif Require Import Prelude Tensor_model Matrix_model Attention_model LinAlg_model.
Import ListNotations.
Open Scope nat_scope.

Section Tucker.
  Context {A : Type} (zero one : A) (add mul sub : A -> A -> A).
  Notation dot := (dot zero add mul).
  Notation transpose := (transpose zero).
  Notation madd := (LinAlg_model.madd zero add).
  Notation msub := (LinAlg_model.msub zero sub).

  (** External: reduced QR; [is_one v] is the test [v == 1.0]. *)
  Variable qr : mat A -> res (mat A * mat A).
  Variable is_one : A -> bool.

  (** [a + b] for two arrays with three axes.  Shapes that differ raise (numpy would
      broadcast axes of length 1; the two shapes are equal when the ranks are positive). *)
  Definition coord_same (x y : coord) : bool := (c0 x =? c0 y) && (c1 x =? c1 y) && (c2 x =? c2 y).
  Definition tplus (a b : ten A) : res (ten A) :=
    if coord_same (tshape a) (tshape b)
    then Ok (mkTen (tshape a) (map (fun c => add (tget zero a c) (tget zero b c)) (cells (tshape a))))
    else Err ValueError.

  (** source/tucker_integrator.py:66-88, one iteration [i]: the factor [f] of the mode,
      the current core and the current [u1], [u2]; returns the new factor, the new core
      and the value of [u2] after the attention has been applied. *)
  Definition integrator_step (att : option (mat A)) (inds : list coord) (vals : list A) (shape : coord)
             (i : nat) (f : mat A) (core : ten A) (u1 u2 : mat A) : res (mat A * ten A * mat A) :=
    do c <- unfold_dense zero core (Z.of_nat i);
    do '(q, s) <- qr (transpose c);
    do u2' <- match att with Some a => if i <? 2 then dot a u2 else Ok u2 | None => Ok u2 end;
    do d <- sparse_tensor_double_tensor zero add mul is_one inds vals shape q (Z.of_nat i) u1 u2';
    do da <- match att with Some a => if i =? 2 then dot (transpose a) d else Ok d | None => Ok d end;
    do k0 <- dot f (transpose s);
    do k1 <- madd k0 da;
    do '(un, sn) <- qr k1;
    do p <- dot (transpose un) da;
    do s1 <- msub sn p;
    do c' <- dot s1 (transpose q);
    do core' <- fold_dense zero c' (tshape core) (Z.of_nat i);
    Ok (un, core', u2').

  (** source/tucker_integrator.py:23-100 [tucker_intergrator]; [construct_core_parallel]
      gives the same core (C31). *)
  Definition tucker_integrator (u v w : mat A) (core : ten A) (inds : list coord) (vals : list A)
             (shape : coord) (att : option (mat A)) : res (mat A * mat A * mat A * ten A) :=
    do '(un, core1, u2) <- integrator_step att inds vals shape 0 u core v w;
    do '(vn, core2, _) <- integrator_step att inds vals shape 1 v core1 un u2;
    do '(wn, core3, _) <- integrator_step att inds vals shape 2 w core2 un vn;
    do wa <- match att with Some a => dot a wn | None => Ok wn end;
    do dc <- construct_core zero add mul inds vals un vn wa;
    do core4 <- tplus core3 dc;
    Ok (un, vn, wn, core4).

  (** source/models/tirec_accelerated.py:228-239 [_add_zero_embeddings]. *)
  Definition tucker_add_zero (mode : emb_mode) (n : nat) (u v : mat A) : res (mat A * mat A) :=
    match mode with
    | EUsers => do u' <- zero_rows zero u n; Ok (u', v)
    | EItems => do v' <- zero_rows zero v n; Ok (u, v')
    end.

  (** source/models/tirec_accelerated.py:241-262 [_add_random_embeddings]; [normal r c]
      is the random matrix. *)
  Variable normal : nat -> nat -> mat A.
  Definition tucker_add_random (mode : emb_mode) (n : nat) (u v : mat A) (core : ten A)
    : res (mat A * mat A * ten A) :=
    match mode with
    | EUsers =>
      do '(t, r) <- random_rows zero qr normal u n;
      do c <- unfold_dense zero core 0;
      do c' <- dot r c;
      do core' <- fold_dense zero c' (tshape core) 0;
      Ok (t, v, core')
    | EItems =>
      do '(t, r) <- random_rows zero qr normal v n;
      do c <- unfold_dense zero core 1;
      do c' <- dot r c;
      do core' <- fold_dense zero c' (tshape core) 1;
      Ok (u, t, core')
    end.
End Tucker.
