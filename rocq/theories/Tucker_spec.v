(** Specification vocabulary for Tucker decompositions: unfoldings and Kronecker products
    as mathcomp matrices, entries as a dense tensor. *)
From Verif Require Import Prelude Tensor_model Tensor_spec Matrix_model Attention_model LinAlg_model.
Set Warnings "-notation-overridden".
From mathcomp Require Import all_ssreflect all_algebra.
From Verif Require Import LinAlg_spec.
Set Implicit Arguments.
Unset Strict Implicit.
Unset Printing Implicit Defensive.
Import GRing.Theory.
Local Open Scope ring_scope.

Notation cell := Tensor_model.coord.
Notation axis := Tensor_model.pick.

(** An index below [na * nb] is a pair: [lo] varies fastest. *)
Lemma lo_lt na nb (y : 'I_(na * nb)) : (y %% na < na)%N.
Proof. by rewrite ltn_mod; case: na y => // -[]. Qed.
Lemma hi_lt na nb (y : 'I_(na * nb)) : (y %/ na < nb)%N.
Proof. by case: na y => [[]//|na] y; rewrite ltn_divLR // [X in (_ < X)%N]mulnC. Qed.
Definition lo na nb (y : 'I_(na * nb)) : 'I_na := Ordinal (lo_lt y).
Definition hi na nb (y : 'I_(na * nb)) : 'I_nb := Ordinal (hi_lt y).

Section Spec.
Variable R : comRingType.

(** Unfolding along mode [n] of a tensor given by its cells; [a] is the first other mode
    and varies fastest in the columns. *)
Definition unf (n a nn na nb : nat) (t : cell -> R) : 'M[R]_(nn, na * nb) :=
  \matrix_(i, y) t (place n a i (lo y) (hi y)).

(** Kronecker product, rows and columns in the same order. *)
Definition krn na ra nb rb (ga : 'M[R]_(na, ra)) (gb : 'M[R]_(nb, rb)) : 'M[R]_(na * nb, ra * rb) :=
  \matrix_(y, z) (ga (lo y) (lo z) * gb (hi y) (hi z)).

(** The tensor given by a list of entries: duplicates add up. *)
Definition dense (es : list (cell * R)) (c : cell) : R := \sum_(e <- es | e.1 == c) e.2.

(** One step of the integrator for the mode with factor [f] and unfolded cores [c], [c'];
    [d] is the unfolded new data, [g] the Kronecker product of the other two factors and
    [l] a matrix applied to the mode.  With [q] an orthonormal basis of the row space of
    [c], the new factor is an orthonormal basis of a space containing the columns of
    [f c q + l d g q], and the product of factor and core changes by the part of
    [l d g q q^T] outside that space. *)
Definition step_ok nn rn N K (f f' : 'M[R]_(nn, rn)) (c c' : 'M[R]_(rn, K)) (l : 'M[R]_nn)
  (d : 'M[R]_(nn, N)) (g : 'M[R]_(N, K)) : Prop :=
  exists q : 'M[R]_(K, rn),
    let k := f *m c *m q + l *m d *m g *m q in
    [/\ q^T *m q = 1%:M, c *m q *m q^T = c, f'^T *m f' = 1%:M, f' *m f'^T *m k = k
      & f' *m c' = f *m c + (1%:M - f' *m f'^T) *m (l *m d *m g *m q *m q^T)].

(** The tensor represented by three factors and a core. *)
Definition rep (u v w : mat R) (core : ten R) (c : cell) : R :=
  tucker 0 +%R *%R u v w core (c0 c) (c1 c) (c2 c).

(** The attention matrix; no attention is the identity. *)
Definition attm n (att : option (mat R)) : 'M[R]_n := if att is Some a then mx n n a else 1%:M.
Definition att_shape n (att : option (mat R)) : Prop := if att is Some a then shape n n a else True.

(** Well-formed arguments of the integrator: factors and core of matching shapes, valid
    ranks, at least one entry, all entries inside the tensor. *)
Definition tucker_args (n0 r0 n1 r1 n2 r2 : nat) (u v w : mat R) (core : ten R)
  (inds : list cell) (vals : list R) (att : option (mat R)) : Prop :=
  [/\ shape n0 r0 u, shape n1 r1 v, shape n2 r2 w & att_shape n2 att] /\
  (twf core /\ tshape core = (r0, r1, r2)) /\
  [/\ (r0 <= r1 * r2)%N, (r1 <= r0 * r2)%N & (r2 <= r0 * r1)%N] /\
  [/\ (r0 <= n0)%N, (r1 <= n1)%N & (r2 <= n2)%N] /\
  [/\ inds <> nil, length vals = length inds & List.Forall (in_range (n0, n1, n2)) inds].

(** Every unfolding of [t] has the same column space after projection on the old row space:
    the condition of the exactness theorem. *)
Definition keeps_columns (n0 r0 n1 r1 n2 r2 : nat) (u v w : mat R) (core : ten R) (t : cell -> R) : Prop :=
  let U := mx n0 r0 u in let V := mx n1 r1 v in let W := mx n2 r2 w in let c := tget 0 core in
  [/\ exists x, unf 0 1 n0 n1 n2 t = unf 0 1 n0 n1 n2 t *m krn V W *m (unf 0 1 r0 r1 r2 c)^T *m x,
      exists x, unf 1 0 n1 n0 n2 t = unf 1 0 n1 n0 n2 t *m krn U W *m (unf 1 0 r1 r0 r2 c)^T *m x
    & exists x, unf 2 0 n2 n0 n1 t = unf 2 0 n2 n0 n1 t *m krn U V *m (unf 2 0 r2 r0 r1 c)^T *m x].

(** [t] is the old tensor plus the new data with the attention applied to the third mode. *)
Definition is_target (n0 n1 n2 : nat) (u v w : mat R) (core : ten R) (es : list (cell * R)) (att : option (mat R))
  (t : cell -> R) : Prop :=
  forall (i : 'I_n0) (j : 'I_n1) (k : 'I_n2), t (i : nat, j : nat, k : nat)
     = rep u v w core (i : nat, j : nat, k : nat)
       + \sum_(l < n2) attm n2 att l k * dense es (i : nat, j : nat, l : nat).

(** Orthonormal columns. *)
Definition orthonormal m k (a : mat R) : Prop := (mx m k a)^T *m mx m k a = 1%:M.

(** Entries that sparse_tensor_double_tensor processes: all of them unless their number
    exceeds 10000 and is not a multiple of it. *)
Definition done_entries (inds : list cell) (vals : list R) : list (cell * R) :=
  List.firstn (processed max_points (length inds)) (List.combine inds vals).

(** Result of the integrator: one step per mode, the cores [c1], [c2], [c3] after the
    steps, and the final core.  The attention enters the first step once and the second
    step twice. *)
Definition integrator_outcome (n0 r0 n1 r1 n2 r2 : nat) (u v w : mat R) (core : ten R)
  (inds : list cell) (vals : list R) (att : option (mat R))
  (un vn wn : mat R) (c1 c2 c3 cn : ten R) : Prop :=
  let A := attm n2 att in
  let data := dense (List.combine inds vals) in
  let seen := dense (done_entries inds vals) in
  [/\ shape n0 r0 un, shape n1 r1 vn & shape n2 r2 wn] /\
  [/\ twf cn, tshape cn = (r0, r1, r2),
      step_ok (mx n0 r0 u) (mx n0 r0 un) (unf 0 1 r0 r1 r2 (tget 0 core)) (unf 0 1 r0 r1 r2 (tget 0 c1))
        1%:M (unf 0 1 n0 n1 n2 seen) (krn (mx n1 r1 v) (A *m mx n2 r2 w)),
      step_ok (mx n1 r1 v) (mx n1 r1 vn) (unf 1 0 r1 r0 r2 (tget 0 c1)) (unf 1 0 r1 r0 r2 (tget 0 c2))
        1%:M (unf 1 0 n1 n0 n2 seen) (krn (mx n0 r0 un) (A *m (A *m mx n2 r2 w)))
    & step_ok (mx n2 r2 w) (mx n2 r2 wn) (unf 2 0 r2 r0 r1 (tget 0 c2)) (unf 2 0 r2 r0 r1 (tget 0 c3))
        A^T (unf 2 0 n2 n0 n1 seen) (krn (mx n0 r0 un) (mx n1 r1 vn))] /\
  unf 0 1 r0 r1 r2 (tget 0 cn) = unf 0 1 r0 r1 r2 (tget 0 c3)
    + (mx n0 r0 un)^T *m unf 0 1 n0 n1 n2 data *m krn (mx n1 r1 vn) (A *m mx n2 r2 wn).
End Spec.
