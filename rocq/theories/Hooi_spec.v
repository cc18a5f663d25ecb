(** Specification vocabulary for the iterative Tucker decompositions. *)
From Verif Require Import Prelude Tensor_model Tensor_spec Matrix_model Attention_model LinAlg_model Hooi_model.
Set Warnings "-notation-overridden".
From mathcomp Require Import all_ssreflect all_algebra.
From Verif Require Import LinAlg_spec Tucker_spec.
Set Implicit Arguments.
Unset Strict Implicit.
Unset Printing Implicit Defensive.
Import GRing.Theory Num.Theory.
Local Open Scope ring_scope.

Section Spec.
Variable R : comRingType.

(** [m] is the contraction of a tensor with [fa] and [fb] over two modes: row [i] is the
    remaining mode, column [j * rb + k] the pair of columns [j] of [fa] and [k] of [fb];
    [c i y z] is the cell with index [i] on the remaining mode. *)
Definition contracts (nn na ra nb rb : nat) (c : nat -> nat -> nat -> cell) (data : cell -> R)
  (fa fb m : mat R) : Prop :=
  shape nn (ra * rb) m /\
  forall i j k, (i < nn)%N -> (j < ra)%N -> (k < rb)%N ->
    mget 0 m i (j * rb + k) = \sum_(y < na) \sum_(z < nb) data (c i y z) * mget 0 fa y j * mget 0 fb z k.
Definition at0 (i y z : nat) : cell := (i, y, z).
Definition at1 (i y z : nat) : cell := (y, i, z).
Definition at2 (i y z : nat) : cell := (y, z, i).

(** [f] holds the columns of [u] in reverse order. *)
Definition reversed (n r : nat) (u f : mat R) : Prop :=
  shape n r f /\ forall i j, (i < n)%N -> (j < r)%N -> mget 0 f i j = mget 0 u i (r - j.+1).

(** [core] is the contraction of a tensor with three factors. *)
Definition core_of (n0 r0 n1 r1 n2 r2 : nat) (data : cell -> R) (U : 'M[R]_(n0, r0)) (V : 'M[R]_(n1, r1))
  (W : 'M[R]_(n2, r2)) (core : ten R) : Prop :=
  [/\ twf core, tshape core = (r0, r1, r2)
    & forall (a : 'I_r0) (b : 'I_r1) (c : 'I_r2), tget 0 core (a : nat, b : nat, c : nat)
      = \sum_(i < n0) \sum_(j < n1) \sum_(k < n2) data (i : nat, j : nat, k : nat) * U i a * V j b * W k c].

(** Contract of the inner truncated SVD: left vectors of the right shape, orthonormal. *)
Definition inner_ok (rsvd : nat -> mat R -> nat -> res (mat R * list R * mat R)) : Prop :=
  forall t x r u s vt, rsvd t x r = Ok (u, s, vt) ->
    let k := minn r (minn (mr x) (mc x)) in
    shape (mr x) k u /\ (mx (mr x) k u)^T *m mx (mr x) k u = 1%:M.

Section Sweep.
Variables (n0 r0 n1 r1 n2 r2 : nat).
Variable data : cell -> R.
Variable A : 'M[R]_n2.
Variable rsvd : nat -> mat R -> nat -> res (mat R * list R * mat R).

(** Sweep [t]: every factor in turn becomes the reversed leading left vectors of the data
    contracted with the two other, already updated, factors.  The attention multiplies the
    third factor when the first two are computed, its transpose the contraction of the
    third mode, and it enters the core with the third factor. *)
Definition sweep (t : nat) (f f' : factors) (core : ten R) : Prop :=
  exists wa m0 m1 m2 m2' : mat R,
  [/\ shape n2 r2 wa /\ mx n2 r2 wa = A *m mx n2 r2 (factor f 2),
      contracts n0 n1 r1 n2 r2 at0 data (factor f 1) wa m0 /\
      (exists u s vt, rsvd (3 * t)%N m0 r0 = Ok (u, s, vt) /\ reversed n0 r0 u (factor f' 0)),
      contracts n1 n0 r0 n2 r2 at1 data (factor f' 0) wa m1 /\
      (exists u s vt, rsvd (3 * t + 1)%N m1 r1 = Ok (u, s, vt) /\ reversed n1 r1 u (factor f' 1)),
      [/\ contracts n2 n0 r0 n1 r1 at2 data (factor f' 0) (factor f' 1) m2,
          shape n2 (r0 * r1) m2' /\ mx n2 (r0 * r1) m2' = A^T *m mx n2 (r0 * r1) m2
        & exists u s vt, rsvd (3 * t + 2)%N m2' r2 = Ok (u, s, vt) /\ reversed n2 r2 u (factor f' 2)]
    & core_of data (mx n0 r0 (factor f' 0)) (mx n1 r1 (factor f' 1)) (A *m mx n2 r2 (factor f' 2)) core].
End Sweep.

(** Initial factor of a mode: the QR factor of random numbers, its first rows replaced by
    the given factor if there is one. *)
Definition start_factor (qr : mat R -> res (mat R * mat R)) (rand : nat -> nat -> nat -> mat R)
  (mode n r : nat) (init : option (mat R)) (f : mat R) : Prop :=
  shape n r f /\
  exists q s, qr (rand mode n r) = Ok (q, s) /\
    forall i j, (i < n)%N -> (j < r)%N ->
      mget 0 f i j = match init with
                     | Some x => if (i < mr x)%N then mget 0 x i j else mget 0 q i j
                     | None => mget 0 q i j
                     end.
Definition start (qr : mat R -> res (mat R * mat R)) (rand : nat -> nat -> nat -> mat R)
  (n0 r0 n1 r1 n2 r2 : nat) (init : option (@factors R)) (f : factors) : Prop :=
  [/\ start_factor qr rand 0 n0 r0 (option_map (fun x => factor x 0) init) (factor f 0),
      start_factor qr rand 1 n1 r1 (option_map (fun x => factor x 1) init) (factor f 1)
    & start_factor qr rand 2 n2 r2 (option_map (fun x => factor x 2) init) (factor f 2)].

(** Whether to stop after a sweep that produced factors [f] and core [g], the norm before
    being [old] and the state of the callback [st]. *)
Definition decision {N C : Type} (norm : ten R -> N) (grew : N -> N -> bool) (cb : option (@callback R C))
  (force : bool) (old : N) (st : C) (f : factors) (g : ten R) : res (C * bool) :=
  if force then Ok (st, false)
  else match cb with None => Ok (st, ~~ grew (norm g) old) | Some c => c st f g end.

(** The norm the core of sweep [t] (counted from 0) is compared with. *)
Definition norm_before {N : Type} (norm : ten R -> N) (norm0 : N) (G : nat -> ten R) (t : nat) : N :=
  if t is 0 then norm0 else norm (G t).

(** A run of [k] sweeps out of at most [n]: [F t], [G t] and [S t] are the factors, the
    core and the callback's state after [t] sweeps; every sweep before the last one decides
    to go on, the last one to stop unless all sweeps are used up. *)
Definition run {N C : Type} (norm : ten R -> N) (norm0 : N) (grew : N -> N -> bool) (cb : option (@callback R C))
  (force : bool) (sw : nat -> factors -> factors -> ten R -> Prop) (n k : nat)
  (F : nat -> factors) (G : nat -> ten R) (S : nat -> C) : Prop :=
  [/\ (k <= n)%N, (0 < n)%N -> (0 < k)%N,
      forall t, (t < k)%N -> sw t (F t) (F t.+1) (G t.+1)
    & forall t, (t < k)%N ->
        exists b, [/\ decision norm grew cb force (norm_before norm norm0 G t) (S t) (F t.+1) (G t.+1) = Ok (S t.+1, b),
                      b = true -> t.+1 = k & b = false -> (t.+1 < k)%N \/ k = n]].

(** The data with the attention applied to the third mode. *)
Definition attended (n2 : nat) (att : mat R) (data : cell -> R) (c : cell) : R :=
  \sum_(l < n2) mget 0 att l (c2 c) * data (c0 c, c1 c, l : nat).

(** Sum of squares of a tensor. *)
Definition sumsq (n0 n1 n2 : nat) (t : cell -> R) : R :=
  \sum_(i < n0) \sum_(j < n1) \sum_(k < n2) t (i : nat, j : nat, k : nat) ^+ 2.

(** The factors are orthonormal and represent, with the core, the orthogonal projection of
    [t] on them: the projection formula; exactness if and only if every factor spans the
    columns of its unfolding; the squared norm splits into that of the core and that of the
    error. *)
Definition projection (n0 r0 n1 r1 n2 r2 : nat) (t : cell -> R) (fs : factors) (core : ten R) : Prop :=
  let u := factor fs 0 in let v := factor fs 1 in let w := factor fs 2 in
  let PU := mx n0 r0 u *m (mx n0 r0 u)^T in
  let PV := mx n1 r1 v *m (mx n1 r1 v)^T in
  let PW := mx n2 r2 w *m (mx n2 r2 w)^T in
  [/\ [/\ orthonormal n0 r0 u, orthonormal n1 r1 v & orthonormal n2 r2 w],
      forall (i : 'I_n0) (j : 'I_n1) (k : 'I_n2), rep u v w core (i : nat, j : nat, k : nat)
        = \sum_(a < n0) \sum_(b < n1) \sum_(c < n2) t (a : nat, b : nat, c : nat) * PU i a * PV j b * PW k c,
      (forall c, in_range (n0, n1, n2) c -> rep u v w core c = t c) <->
        [/\ PU *m unf 0 1 n0 n1 n2 t = unf 0 1 n0 n1 n2 t,
            PV *m unf 1 0 n1 n0 n2 t = unf 1 0 n1 n0 n2 t
          & PW *m unf 2 0 n2 n0 n1 t = unf 2 0 n2 n0 n1 t]
    & sumsq n0 n1 n2 t = sumsq r0 r1 r2 (tget 0 core) + sumsq n0 n1 n2 (fun c => t c - rep u v w core c)].

(** Contracts of the SVD routines used by the one-pass decompositions: right vectors of a
    truncated SVD; right vectors of a full SVD (square); left vectors of a sparse SVD. *)
Definition right_ok (rsvd : nat -> mat R -> nat -> res (mat R * list R * mat R)) : Prop :=
  forall t x r u s vt, rsvd t x r = Ok (u, s, vt) ->
    let k := minn r (minn (mr x) (mc x)) in
    shape k (mc x) vt /\ mx k (mc x) vt *m (mx k (mc x) vt)^T = 1%:M.
Definition svd_full_ok (svd : mat R -> res (mat R * list R * mat R)) : Prop :=
  forall x u s vt, svd x = Ok (u, s, vt) ->
    shape (mc x) (mc x) vt /\ mx (mc x) (mc x) vt *m (mx (mc x) (mc x) vt)^T = 1%:M.
Definition svds_ok (svds_u : @coo R -> nat -> res (mat R)) : Prop :=
  forall x r u, svds_u x r = Ok u -> shape (coo_r x) r u /\ (mx (coo_r x) r u)^T *m mx (coo_r x) r u = 1%:M.

(** Column [j] of [f] is row [r - 1 - j] of [vt]. *)
Definition reversed_rows (n r : nat) (vt f : mat R) : Prop :=
  shape n r f /\ forall i j, (i < n)%N -> (j < r)%N -> mget 0 f i j = mget 0 vt (r - j.+1) i.

(** Factor of mode [n] of the tensor [t]: right vectors of the transposed unfolding,
    reversed. *)
Definition unfolding_factor (svd : mat R -> res (mat R * list R * mat R)) (n a nn na nb r : nat)
  (t : cell -> R) (f : mat R) : Prop :=
  exists x u s vt, [/\ shape (na * nb) nn x, mx (na * nb) nn x = (unf n a nn na nb t)^T,
                       svd x = Ok (u, s, vt) & reversed_rows nn r vt f].

(** Factor of mode [n] of sparse data: left vectors of the sparse unfolding, reversed. *)
Definition sparse_factor (svds_u : @coo R -> nat -> res (mat R)) (n a b nn na nb r : nat)
  (es : list (cell * R)) (f : mat R) : Prop :=
  exists x u, [/\ coo_r x = nn, coo_c x = (na * nb)%N,
                  coo_entries x = [seq ((axis e.1 n, (axis e.1 a + na * axis e.1 b)%N), e.2) | e <- es],
                  svds_u x r = Ok u & reversed nn r u f].

(** Sweep [t] of tucker2: the factor of the identity mode stays, every other becomes the
    reversed leading left vectors of the data contracted with the two others. *)
Definition updates (rsvd : nat -> mat R -> nat -> res (mat R * list R * mat R)) (call : nat)
  (nn rn na ra nb rb : nat) (c : nat -> nat -> nat -> cell) (data : cell -> R) (fa fb f' : mat R) : Prop :=
  exists m u s vt, [/\ contracts nn na ra nb rb c data fa fb m, rsvd call m rn = Ok (u, s, vt) & reversed nn rn u f'].
Definition sweep2 (n0 r0 n1 r1 n2 r2 : nat) (data : cell -> R)
  (rsvd : nat -> mat R -> nat -> res (mat R * list R * mat R)) (im t : nat) (f f' : factors) (core : ten R) : Prop :=
  [/\ if im == 0%N then factor f' 0 = factor f 0
      else updates rsvd (3 * t) n0 r0 n1 r1 n2 r2 at0 data (factor f 1) (factor f 2) (factor f' 0),
      if im == 1%N then factor f' 1 = factor f 1
      else updates rsvd (3 * t + 1) n1 r1 n0 r0 n2 r2 at1 data (factor f' 0) (factor f 2) (factor f' 1),
      if im == 2%N then factor f' 2 = factor f 2
      else updates rsvd (3 * t + 2) n2 r2 n0 r0 n1 r1 at2 data (factor f' 0) (factor f' 1) (factor f' 2)
    & core_of data (mx n0 r0 (factor f' 0)) (mx n1 r1 (factor f' 1)) (mx n2 r2 (factor f' 2)) core].

(** Well-formed arguments of the sparse decompositions. *)
Definition hooi_args (n0 r0 n1 r1 n2 r2 : nat) (inds : list cell) (vals : list R) : Prop :=
  [/\ (r0 <= n0)%N, (r1 <= n1)%N & (r2 <= n2)%N] /\
  [/\ (r0 <= r1 * r2)%N, (r1 <= r0 * r2)%N & (r2 <= r0 * r1)%N] /\
  length vals = length inds /\ List.Forall (in_range (n0, n1, n2)) inds.
End Spec.

(** The inner SVD returns the best subspace: no other orthonormal vectors catch more of the
    squared norm. *)
Definition optimal (R : realDomainType) (rsvd : nat -> mat R -> nat -> res (mat R * list R * mat R)) : Prop :=
  forall t x r u s vt, rsvd t x r = Ok (u, s, vt) ->
    let m := mr x in let n := mc x in let k := minn r (minn m n) in
    forall V : 'M[R]_(m, k), V^T *m V = 1%:M ->
      \tr ((V^T *m mx m n x) *m (V^T *m mx m n x)^T) <= \tr (((mx m k u)^T *m mx m n x) *m ((mx m k u)^T *m mx m n x)^T).
