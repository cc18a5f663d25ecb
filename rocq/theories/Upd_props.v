(** Property theorems for the incremental updates of source/tucker_integrator.py
    (update_tucker_new_vectors, update_tucker_new_matrix): C61, C62. *)
From Verif Require Import Prelude Tensor_model Tensor_spec Matrix_model Attention_model LinAlg_model Hooi_model Upd_model.
Set Warnings "-notation-overridden".
From mathcomp Require Import all_ssreflect all_algebra.
From Verif Require Import LinAlg_spec LinAlg_tables Tucker_spec Hooi_spec Upd_spec.
From Verif Require Upd_vec Upd_new Upd_block Upd_wit LinAlg_wit Hooi_wit.
Set Implicit Arguments.
Unset Strict Implicit.
Unset Printing Implicit Defensive.
Import GRing.Theory.
Local Open Scope ring_scope.

(** C61.  The implicit operator handed to svds multiplies by (W kron V) core' and by its
    transpose, without raising, for every core and pair of factors of matching shapes. *)
Theorem implicit_unfolding_operator :
  forall (R : comRingType) rn na ra nb rb (c lf rf : mat R),
  shape rn (ra * rb) c -> shape na ra rf -> shape nb rb lf ->
  op_is (krn (mx na ra rf) (mx nb rb lf) *m (mx rn (ra * rb) c)^T) (kron_op 0 +%R *%R c lf rf rn).
Proof. exact: Upd_vec.kron_op_ok. Qed.
Print Assumptions implicit_unfolding_operator.

(** C61.  Result of update_tucker_new_vectors for a mode [n] with the other modes [a], [b]:
    it raises only if QR or an SVD does; the factor of the mode gets [c] more rows, the
    other two factors are unchanged, the core keeps its shape, an orthonormal factor stays
    orthonormal.  The unfolded result differs from the old unfolding with the new vectors,
    projected on the other two factors, below it by the image of the error of the last SVD,
    whose argument is the coordinates of the old unfolding and the new vectors. *)
Theorem new_vectors_error :
  forall (R : comRingType) (qr : mat R -> res (mat R * mat R)) (svds : linop R -> nat -> res (mat R * list R * mat R))
         (rsvd1 rsvd2 : mat R -> nat -> res (mat R * list R * mat R)) (exceeds_eps : R -> bool),
  qr_ok qr -> svds_op_ok svds -> truncated_ok rsvd1 -> truncated_ok rsvd2 ->
  forall explicit mode n a b nn rn na ra nb rb c (fs : @factors R) core nv,
  modes mode n a b -> factors_at n a b nn rn na ra nb rb fs core -> shape c (na * nb) nv ->
  (0 < rn)%N -> (rn <= na * nb)%N -> (c <= na * nb)%N ->
  orthonormal na ra (factor fs a) -> orthonormal nb rb (factor fs b) ->
  let N := (na * nb)%N in
  let K := krn (mx na ra (factor fs a)) (mx nb rb (factor fs b)) in
  let P := krn (proj na ra (factor fs a)) (proj nb rb (factor fs b)) in
  let Y := K *m (unf n a rn ra rb (tget 0 core))^T in
  match update_tucker_new_vectors (0 : R) 1 +%R *%R (fun x y => x - y) qr svds rsvd1 rsvd2 exceeds_eps explicit fs core nv n with
  | Err e => (exists x, qr x = Err e) \/ (exists op k, svds op k = Err e) \/
             (exists x r, rsvd1 x r = Err e) \/ (exists x r, rsvd2 x r = Err e)
  | Ok (fs', core') =>
    [/\ factors_at n a b (nn + c) rn na ra nb rb fs' core', factor fs' a = factor fs a /\ factor fs' b = factor fs b,
        tshape core' = tshape core, orthonormal nn rn (factor fs n) -> orthonormal (nn + c) rn (factor fs' n)
      & (explicit -> forall x t, shape N rn x -> mx N rn x = Y -> rsvd1 x rn = Ok t -> product N rn rn t = Y) ->
        exists p dq t (L : 'M[R]_(N, p)) (W : 'M[R]_(rn + c, nn + c)),
        [/\ rsvd2 dq rn = Ok t, shape p (rn + c) dq, orthonormal nn rn (factor fs n) -> W *m W^T = 1%:M /\
              exists M : 'M_(p, N), mx p (rn + c) dq = M *m (col_mx (mx nn rn (factor fs n) *m Y^T) (mx c N nv))^T *m W^T,
            L *m mx p (rn + c) dq *m W = (col_mx (mx nn rn (factor fs n) *m Y^T) (mx c N nv))^T
          & unf n a (nn + c) na nb (rep3 fs' core') - col_mx (unf n a nn na nb (rep3 fs core)) (mx c N nv *m P)
            = (L *m (product p rn (rn + c) t - mx p (rn + c) dq) *m W)^T *m P]]
  end.
Proof. exact: Upd_new.new_vectors_main. Qed.
Print Assumptions new_vectors_error.

(** C61.  Cell by cell, when the last SVD loses nothing: every old cell is kept, a new row
    is the given vector projected on the other two factors. *)
Theorem new_vectors_cells :
  forall (R : comRingType) (qr : mat R -> res (mat R * mat R)) (svds : linop R -> nat -> res (mat R * list R * mat R))
         (rsvd1 rsvd2 : mat R -> nat -> res (mat R * list R * mat R)) (exceeds_eps : R -> bool),
  qr_ok qr -> svds_op_ok svds -> truncated_ok rsvd1 -> truncated_ok rsvd2 ->
  forall explicit mode n a b nn rn na ra nb rb c (fs : @factors R) core nv fs' core',
  modes mode n a b -> factors_at n a b nn rn na ra nb rb fs core -> shape c (na * nb) nv ->
  (0 < rn)%N -> (rn <= na * nb)%N -> (c <= na * nb)%N ->
  orthonormal na ra (factor fs a) -> orthonormal nb rb (factor fs b) ->
  let N := (na * nb)%N in
  let Y := krn (mx na ra (factor fs a)) (mx nb rb (factor fs b)) *m (unf n a rn ra rb (tget 0 core))^T in
  update_tucker_new_vectors (0 : R) 1 +%R *%R (fun x y => x - y) qr svds rsvd1 rsvd2 exceeds_eps explicit fs core nv n
    = Ok (fs', core') ->
  (explicit -> forall x t, shape N rn x -> mx N rn x = Y -> rsvd1 x rn = Ok t -> product N rn rn t = Y) ->
  exists p dq t (L : 'M[R]_(N, p)) (W : 'M[R]_(rn + c, nn + c)),
  [/\ rsvd2 dq rn = Ok t, shape p (rn + c) dq, orthonormal nn rn (factor fs n) -> W *m W^T = 1%:M /\
        exists M : 'M_(p, N), mx p (rn + c) dq = M *m (col_mx (mx nn rn (factor fs n) *m Y^T) (mx c N nv))^T *m W^T,
      L *m mx p (rn + c) dq *m W = (col_mx (mx nn rn (factor fs n) *m Y^T) (mx c N nv))^T
    & product p rn (rn + c) t = mx p (rn + c) dq ->
      (forall i y z, (i < nn)%N -> (y < na)%N -> (z < nb)%N ->
         rep3 fs' core' (place n a i y z) = rep3 fs core (place n a i y z)) /\
      (forall i (y : 'I_na) (z : 'I_nb), (i < c)%N ->
         rep3 fs' core' (place n a (nn + i)%N y z)
         = \sum_(y' < na) \sum_(z' < nb)
             mget 0 nv i (y' + na * z')%N * proj na ra (factor fs a) y' y * proj nb rb (factor fs b) z' z)].
Proof. exact: Upd_new.new_vectors_cells_main. Qed.
Print Assumptions new_vectors_cells.

(** C61.  The same with random_svd as the code calls it: the given numbers of power
    iterations and extra samples for the first SVD, always 1 and 2 for the last one.  The
    first one is exact when the sampled powers span the unfolding. *)
Theorem new_vectors_cells_random_svd :
  forall (R : comRingType) (qr : mat R -> res (mat R * mat R)) (svd : mat R -> res (mat R * list R * mat R))
         (randn1 randn2 : nat -> nat -> mat R) (svds : linop R -> nat -> res (mat R * list R * mat R))
         (exceeds_eps : R -> bool) npow os,
  qr_ok qr -> svd_ok svd -> randn_ok randn1 -> randn_ok randn2 -> svds_op_ok svds ->
  forall explicit mode n a b nn rn na ra nb rb c (fs : @factors R) core nv fs' core',
  modes mode n a b -> factors_at n a b nn rn na ra nb rb fs core -> shape c (na * nb) nv ->
  (0 < rn)%N -> (rn <= na * nb)%N -> (c <= na * nb)%N ->
  orthonormal na ra (factor fs a) -> orthonormal nb rb (factor fs b) ->
  let N := (na * nb)%N in
  let Y := krn (mx na ra (factor fs a)) (mx nb rb (factor fs b)) *m (unf n a rn ra rb (tget 0 core))^T in
  update_tucker_new_vectors (0 : R) 1 +%R *%R (fun x y => x - y) qr svds
    (fun x r => random_svd 0 +%R *%R qr svd randn1 x r npow os) (fun x r => random_svd 0 +%R *%R qr svd randn2 x r 1 2)
    exceeds_eps explicit fs core nv n = Ok (fs', core') ->
  (explicit -> exists Z, Y = powers Y (Y *m mx rn (rn + os) (randn1 rn (rn + os)%N)) npow *m Z) ->
  exists p dq t (L : 'M[R]_(N, p)) (W : 'M[R]_(rn + c, nn + c)),
  [/\ random_svd 0 +%R *%R qr svd randn2 dq rn 1 2 = Ok t, shape p (rn + c) dq,
      orthonormal nn rn (factor fs n) -> W *m W^T = 1%:M /\
        exists M : 'M_(p, N), mx p (rn + c) dq = M *m (col_mx (mx nn rn (factor fs n) *m Y^T) (mx c N nv))^T *m W^T,
      L *m mx p (rn + c) dq *m W = (col_mx (mx nn rn (factor fs n) *m Y^T) (mx c N nv))^T
    & product p rn (rn + c) t = mx p (rn + c) dq ->
      (forall i y z, (i < nn)%N -> (y < na)%N -> (z < nb)%N ->
         rep3 fs' core' (place n a i y z) = rep3 fs core (place n a i y z)) /\
      (forall i (y : 'I_na) (z : 'I_nb), (i < c)%N ->
         rep3 fs' core' (place n a (nn + i)%N y z)
         = \sum_(y' < na) \sum_(z' < nb)
             mget 0 nv i (y' + na * z')%N * proj na ra (factor fs a) y' y * proj nb rb (factor fs b) z' z)].
Proof. exact: Upd_new.new_vectors_random_main. Qed.
Print Assumptions new_vectors_cells_random_svd.

(** C61.  More new vectors than columns of the unfolding are never accepted. *)
Theorem new_vectors_too_many :
  forall (R : comRingType) (qr : mat R -> res (mat R * mat R)) (svds : linop R -> nat -> res (mat R * list R * mat R))
         (rsvd1 rsvd2 : mat R -> nat -> res (mat R * list R * mat R)) (exceeds_eps : R -> bool),
  qr_ok qr -> svds_op_ok svds -> truncated_ok rsvd1 -> truncated_ok rsvd2 ->
  forall explicit mode n a b nn rn na ra nb rb c (fs : @factors R) core nv,
  modes mode n a b -> factors_at n a b nn rn na ra nb rb fs core -> shape c (na * nb) nv ->
  (rn <= na * nb)%N -> (na * nb < c)%N ->
  exists e, update_tucker_new_vectors (0 : R) 1 +%R *%R (fun x y => x - y) qr svds rsvd1 rsvd2 exceeds_eps explicit fs core nv n
            = Err e.
Proof. exact: Upd_new.new_vectors_too_many_main. Qed.
Print Assumptions new_vectors_too_many.

(** C62.  update_tucker_new_matrix raises only for an invalid rank or if an SVD does.
    Otherwise the first two factors get the new rows, rank and core shape stay, and for
    orthonormal factors the result is the orthogonal projection of the block tensor (old
    tensor and new data in opposite corners; the new data attended and projected on the
    third factor) on the new factors.  These are the old factors, extended by an orthonormal
    basis of the new block, times the leading singular vectors of the block tensor's
    coordinates; when those span the coordinates, every cell of the block tensor is met. *)
Theorem new_matrix_projects :
  forall (R : comRingType) (qr : mat R -> res (mat R * mat R)) (rand2 rand3 : nat -> nat -> nat -> mat R)
         (rsvd3 rsvd4 : nat -> mat R -> nat -> res (mat R * list R * mat R))
         (svd_full : mat R -> res (mat R * list R * mat R)),
  right_ok rsvd3 -> right_ok rsvd4 -> svd_full_ok svd_full ->
  forall n0 r0 n1 r1 n2 r2 m0 m1 (u v w : mat R) core inds vals att,
  shape n0 r0 u -> shape n1 r1 v -> shape n2 r2 w -> twf core -> tshape core = (r0, r1, r2) ->
  att_shape n2 att -> length vals = length inds -> List.Forall (in_range (m0, m1, n2)) inds ->
  match update_tucker_new_matrix (0 : R) 1 +%R *%R qr rand2 rand3 rsvd3 rsvd4 svd_full (u, v, w) core inds vals (m0, m1, n2) att with
  | Err e => (e = RuntimeError /\ ~ [/\ (r0 <= r1 * r2)%N, (r1 <= r0 * r2)%N & (r2 <= r0 * r1)%N])
             \/ (exists t y q, rsvd3 t y q = Err e) \/ (exists t y q, rsvd4 t y q = Err e) \/ exists y, svd_full y = Err e
  | Ok (fs, core') =>
    [/\ [/\ (r0 <= r1 * r2)%N, (r1 <= r0 * r2)%N & (r2 <= r0 * r1)%N],
        [/\ shape (n0 + m0) r0 (factor fs 0), shape (n1 + m1) r1 (factor fs 1) & shape n2 r2 (factor fs 2)],
        twf core' /\ tshape core' = (r0, r1, r2)
      & orthonormal n0 r0 u -> orthonormal n1 r1 v -> orthonormal n2 r2 w ->
        let T := block_tensor n0 n1 n2 r2 (rep u v w core) (dense (List.combine inds vals)) att w in
        projection (n0 + m0) r0 (n1 + m1) r1 n2 r2 T fs core' /\
        exists un vn E f0 f1 f2,
        let U := block_mx (mx n0 r0 u) 0 0 (mx m0 m0 un) in
        let V := block_mx (mx n1 r1 v) 0 0 (mx m1 m1 vn) in
        [/\ orthonormal m0 m0 un /\ orthonormal m1 m1 vn,
            unf 0 1 (n0 + m0) (n1 + m1) n2 T
              = U *m unf 0 1 (r0 + m0) (r1 + m1) r2 (tget 0 E) *m (krn V (mx n2 r2 w))^T,
            [/\ unfolding_factor (fun y => rsvd4 0%N y r0) 0 1 (r0 + m0) (r1 + m1) r2 r0 (tget 0 E) f0,
                unfolding_factor (fun y => rsvd4 1%N y r1) 1 0 (r1 + m1) (r0 + m0) r2 r1 (tget 0 E) f1
              & unfolding_factor (fun y => rsvd4 2%N y r2) 2 0 r2 (r0 + m0) (r1 + m1) r2 (tget 0 E) f2],
            [/\ mx (n0 + m0) r0 (factor fs 0) = U *m mx (r0 + m0) r0 f0,
                mx (n1 + m1) r1 (factor fs 1) = V *m mx (r1 + m1) r1 f1
              & mx n2 r2 (factor fs 2) = mx n2 r2 w *m mx r2 r2 f2]
          & [/\ proj (r0 + m0) r0 f0 *m unf 0 1 (r0 + m0) (r1 + m1) r2 (tget 0 E) = unf 0 1 (r0 + m0) (r1 + m1) r2 (tget 0 E),
                proj (r1 + m1) r1 f1 *m unf 1 0 (r1 + m1) (r0 + m0) r2 (tget 0 E) = unf 1 0 (r1 + m1) (r0 + m0) r2 (tget 0 E)
              & proj r2 r2 f2 *m unf 2 0 r2 (r0 + m0) (r1 + m1) (tget 0 E) = unf 2 0 r2 (r0 + m0) (r1 + m1) (tget 0 E)] ->
            forall c, in_range (n0 + m0, n1 + m1, n2)%N c -> rep3 fs core' c = T c]]
  end.
Proof. exact: Upd_block.new_matrix_main. Qed.
Print Assumptions new_matrix_projects.

(** One new vector, four times the second factor, added to the first mode of the rank one
    tensor 3 u o u o 1 with u = (3/5, 4/5): the old cells stay, the new row is the vector. *)
Example new_vectors_demo :
  [/\ qr_ok LinAlg_wit.demo_qr, svds_op_ok Upd_wit.n_svds, truncated_ok Upd_wit.n_rsvd,
      factors_at 0 1 2 2 1 2 1 1 1 Upd_wit.n_fs Upd_wit.n_core
    & orthonormal 2 1 LinAlg_wit.demo_u /\ orthonormal 1 1 Hooi_wit.one11].
Proof.
  split; [by apply: qr_table_ok; vm_compute|exact: Upd_wit.n_svds_ok|exact: Upd_wit.n_rsvd_ok|exact: Upd_wit.n_at|exact: Upd_wit.n_orth].
Qed.
Example new_vectors_demo_run :
  let go explicit := update_tucker_new_vectors 0 1 +%R *%R (fun x y => x - y) LinAlg_wit.demo_qr Upd_wit.n_svds Upd_wit.n_rsvd Upd_wit.n_rsvd
    (fun x => rat_le (frac 1 100) x) explicit Upd_wit.n_fs Upd_wit.n_core Upd_wit.n_new 0 in
  all (fun explicit => match go explicit with
    | Ok (fs, core) =>
      [&& mdat (factor fs 0) == [:: frac 9 25; frac 12 25; frac 4 5], tdat core == [:: 5%:Q],
          [seq rep3 fs core (2, j, 0)%N | j <- iota 0 2] == mdat Upd_wit.n_new
        & all (fun i => all (fun j => rep3 fs core (i, j, 0)%N == rep3 Upd_wit.n_fs Upd_wit.n_core (i, j, 0)%N) (iota 0 2)) (iota 0 2)]
    | Err _ => false
    end) [:: true; false].
Proof. by vm_compute. Qed.
Example new_vectors_random_demo :
  [/\ qr_ok Upd_wit.r_qr, svd_ok Upd_wit.r_svd, randn_ok Upd_wit.r_randn
    & match update_tucker_new_vectors 0 1 +%R *%R (fun x y => x - y) Upd_wit.r_qr Upd_wit.n_svds
          (fun x r => random_svd 0 +%R *%R Upd_wit.r_qr Upd_wit.r_svd Upd_wit.r_randn x r 0 0)
          (fun x r => random_svd 0 +%R *%R Upd_wit.r_qr Upd_wit.r_svd Upd_wit.r_randn x r 1 2)
          (fun x => rat_le (frac 1 100) x) true Upd_wit.n_fs Upd_wit.n_core Upd_wit.n_new 0 with
      | Ok (fs, core) => mdat (factor fs 0) == [:: frac 9 25; frac 12 25; frac 4 5]
      | Err _ => false
      end].
Proof. case: Upd_wit.r_contracts => H1 H2 H3. split; [exact: H1|exact: H2|exact: H3|by vm_compute]. Qed.

(** A new user and a new item with two ratings, attention (1 0; 1 1), added to a tensor of
    rank (2, 2, 1) whose core has the single entry 5: no cell is lost. *)
Example new_matrix_demo :
  [/\ right_ok Upd_wit.b_rsvd, svd_full_ok Hooi_wit.h_full, List.Forall (in_range (1, 1, 2)%N) Upd_wit.b_inds
    & [/\ orthonormal 3 2 Upd_wit.b_u, orthonormal 2 2 Upd_wit.b_v & orthonormal 2 1 LinAlg_wit.demo_u]].
Proof. split; [exact: Upd_wit.b_rsvd_ok|exact: Hooi_wit.h_full_ok|exact: Upd_wit.b_range|exact: Upd_wit.b_orth]. Qed.
Example new_matrix_demo_run :
  match update_tucker_new_matrix 0 1 +%R *%R Hooi_wit.h_qr Hooi_wit.h_rand Hooi_wit.h_rand Upd_wit.b_rsvd Upd_wit.b_rsvd Hooi_wit.h_full
          Upd_wit.b_fs Upd_wit.b_core Upd_wit.b_inds Upd_wit.b_vals (1, 1, 2)%N (Some Hooi_wit.h_att) with
  | Ok (fs, core) =>
    [&& tdat core == [:: 5%:Q; 0; 0; 5%:Q], rep3 fs core (3, 2, 0)%N == 3%:Q, rep3 fs core (3, 2, 1)%N == 4%:Q,
        rep3 fs core (3, 0, 0)%N == 0, rep3 fs core (0, 2, 1)%N == 0
      & all (fun i => all (fun j => all (fun k =>
          rep3 fs core (i, j, k) == rep3 Upd_wit.b_fs Upd_wit.b_core (i, j, k)) (iota 0 2)) (iota 0 2)) (iota 0 3)]
  | Err _ => false
  end.
Proof. by vm_compute. Qed.
