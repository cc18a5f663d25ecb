(** Property C63: the truncated SVD updates and the one-pass Tucker decompositions reproduce
    their target if and only if it fits in the kept rank. *)
From Verif Require Import Prelude Tensor_model Tensor_spec Matrix_model Attention_model LinAlg_model Hooi_model Upd_model.
Set Warnings "-notation-overridden".
From mathcomp Require Import all_ssreflect all_algebra.
From Verif Require Import LinAlg_spec LinAlg_tables Tucker_spec Hooi_spec Upd_spec Exact_spec.
From Verif Require Exact_main Exact_final Exact_wit LinAlg_wit Hooi_wit Upd_wit.
Set Implicit Arguments.
Unset Strict Implicit.
Unset Printing Implicit Defensive.
Import GRing.Theory.
Local Open Scope ring_scope.

(** C63.  The randomised SVD of a matrix whose columns are covered by the sample is exact if
    and only if the matrix fits in the rank. *)
Theorem random_svd_low_rank :
  forall (R : realFieldType) (qr : mat R -> res (mat R * mat R))
         (svd : mat R -> res (mat R * list R * mat R)) (randn : nat -> nat -> mat R),
  qr_ok qr -> svd_ok svd -> randn_ok randn -> descending_svd svd ->
  forall m n x rank npow os u s vt, shape m n x ->
  random_svd 0 +%R *%R qr svd randn x rank npow os = Ok (u, s, vt) ->
  (exists Y, mx m n x = powers (mx m n x) (mx m n x *m mx n (rank + os) (randn n (rank + os)%N)) npow *m Y) ->
  product m (size s) n (u, s, vt) = mx m n x <-> low_rank rank (mx m n x).
Proof. exact: Exact_final.random_low_iff. Qed.
Print Assumptions random_svd_low_rank.

(** C63.  Appending vectors to orthonormal factors: the result is [A | N] if and only if
    [A | N] fits in the rank. *)
Theorem append_vectors_low_rank :
  forall (R : comRingType) (qr : mat R -> res (mat R * mat R))
         (rsvd : mat R -> nat -> res (mat R * list R * mat R)) (exceeds_eps : R -> bool)
         m r q nc u s vt nv u2 s2 v2t,
  qr_ok qr -> truncated_ok rsvd -> lossless rsvd ->
  shape m r u -> sshape r r s -> shape r q vt -> shape m nc nv -> (nc <= m)%N -> (0 < r + nc)%N ->
  (mx m r u)^T *m mx m r u = 1%:M -> mx r q vt *m (mx r q vt)^T = 1%:M ->
  update_svd_new_vectors 0 1 +%R *%R (fun x y => x - y) qr rsvd exceeds_eps u s vt nv = Ok (u2, s2, v2t) ->
  let B := row_mx (mx m r u *m smx r r s *m mx r q vt) (mx m nc nv) in
  product m (size s2) (q + nc) (u2, s2, v2t) = B <-> low_rank r B.
Proof. exact: Exact_final.append_vectors_iff. Qed.
Print Assumptions append_vectors_low_rank.

(** C63.  Appending a block, general middle factor: the result is diag(A, N) if and only if
    it fits in the rank. *)
Theorem append_block_low_rank :
  forall (R : comRingType) (rsvd : mat R -> nat -> res (mat R * list R * mat R))
         (svd : mat R -> res (mat R * list R * mat R)) (argsort : list R -> list nat)
         m r l n a b u s vt nm u2 s2 v2t,
  svd_ok svd -> truncated_ok rsvd -> lossless rsvd ->
  shape m r u -> shape r l s -> shape l n vt -> shape a b nm ->
  (mx m r u)^T *m mx m r u = 1%:M -> mx l n vt *m (mx l n vt)^T = 1%:M ->
  update_svd_new_submatrix 0 +%R *%R svd rsvd argsort u (SMat s) vt nm = Ok (u2, s2, v2t) ->
  let B := block_mx (mx m r u *m mx r l s *m mx l n vt) 0 0 (mx a b nm) in
  product (m + a) (size s2) (n + b) (u2, s2, v2t) = B <-> low_rank r B.
Proof. exact: Exact_final.append_block_iff. Qed.
Print Assumptions append_block_low_rank.

(** C63.  The same for a vector of non-negative singular values, where the r largest of the
    merged values are kept. *)
Theorem append_block_largest_low_rank :
  forall (R : realFieldType) (svd : mat R -> res (mat R * list R * mat R))
         (rsvd : mat R -> nat -> res (mat R * list R * mat R)) (argsort : list R -> list nat),
  svd_ok svd -> nonneg_svd svd -> argsort_ok (fun x y => x <= y) argsort ->
  forall m r n a b u s vt nm u2 s2 v2t,
  shape m r u -> size s = r -> shape r n vt -> shape a b nm -> all (fun y => 0 <= y) s ->
  (mx m r u)^T *m mx m r u = 1%:M -> mx r n vt *m (mx r n vt)^T = 1%:M ->
  update_svd_new_submatrix 0 +%R *%R svd rsvd argsort u (SVec s) vt nm = Ok (u2, s2, v2t) ->
  let B := block_mx (mx m r u *m dg r s *m mx r n vt) 0 0 (mx a b nm) in
  product (m + a) r (n + b) (u2, s2, v2t) = B <-> low_rank r B.
Proof. exact: Exact_final.append_block_largest_iff. Qed.
Print Assumptions append_block_largest_low_rank.

(** C63.  New vectors for a mode of an orthonormal Tucker model: when the old unfolding with
    the new vectors below it fits in the rank of the mode, every old cell is kept and every
    new row is the given vector, projected on the other two factors. *)
Theorem new_vectors_low_rank :
  forall (R : comRingType) (qr : mat R -> res (mat R * mat R)) (svds : linop R -> nat -> res (mat R * list R * mat R))
         (rsvd1 rsvd2 : mat R -> nat -> res (mat R * list R * mat R)) (exceeds_eps : R -> bool),
  qr_ok qr -> svds_op_ok svds -> truncated_ok rsvd1 -> truncated_ok rsvd2 -> lossless rsvd1 -> lossless rsvd2 ->
  forall explicit mode n a b nn rn na ra nb rb c (fs : @factors R) core nv fs' core',
  modes mode n a b -> factors_at n a b nn rn na ra nb rb fs core -> shape c (na * nb) nv ->
  (0 < rn)%N -> (rn <= na * nb)%N -> (c <= na * nb)%N ->
  orthonormal nn rn (factor fs n) -> orthonormal na ra (factor fs a) -> orthonormal nb rb (factor fs b) ->
  update_tucker_new_vectors (0 : R) 1 +%R *%R (fun x y => x - y) qr svds rsvd1 rsvd2 exceeds_eps explicit fs core nv n
    = Ok (fs', core') ->
  low_rank rn (col_mx (unf n a nn na nb (rep3 fs core)) (mx c (na * nb) nv)) ->
  (forall i y z, (i < nn)%N -> (y < na)%N -> (z < nb)%N ->
     rep3 fs' core' (place n a i y z) = rep3 fs core (place n a i y z)) /\
  (forall i (y : 'I_na) (z : 'I_nb), (i < c)%N ->
     rep3 fs' core' (place n a (nn + i)%N y z)
     = \sum_(y' < na) \sum_(z' < nb)
         mget 0 nv i (y' + na * z')%N * proj na ra (factor fs a) y' y * proj nb rb (factor fs b) z' z).
Proof. exact: Exact_main.new_vectors_low. Qed.
Print Assumptions new_vectors_low_rank.

(** C63.  New users and items: all cells of the block tensor are met if and only if its first
    two unfoldings fit in the ranks. *)
Theorem new_matrix_low_rank :
  forall (R : comRingType) (qr : mat R -> res (mat R * mat R)) rand2 rand3
         (rsvd3 rsvd4 : nat -> mat R -> nat -> res (mat R * list R * mat R)) svd_full,
  right_ok rsvd3 -> (forall t, truncated_ok (rsvd4 t)) -> (forall t, lossless (rsvd4 t)) -> svd_full_ok svd_full ->
  forall n0 r0 n1 r1 n2 r2 m0 m1 (u v w : mat R) core inds vals att fs core',
  shape n0 r0 u -> shape n1 r1 v -> shape n2 r2 w -> twf core -> tshape core = (r0, r1, r2) ->
  att_shape n2 att -> length vals = length inds -> List.Forall (in_range (m0, m1, n2)) inds ->
  orthonormal n0 r0 u -> orthonormal n1 r1 v -> orthonormal n2 r2 w ->
  update_tucker_new_matrix (0 : R) 1 +%R *%R qr rand2 rand3 rsvd3 rsvd4 svd_full (u, v, w) core inds vals (m0, m1, n2) att
    = Ok (fs, core') ->
  let T := block_tensor n0 n1 n2 r2 (rep u v w core) (dense (List.combine inds vals)) att w in
  (forall c, in_range (n0 + m0, n1 + m1, n2)%N c -> rep3 fs core' c = T c) <->
  low_rank r0 (unf 0 1 (n0 + m0) (n1 + m1) n2 T) /\ low_rank r1 (unf 1 0 (n1 + m1) (n0 + m0) n2 T).
Proof. exact: Exact_final.new_matrix_iff. Qed.
Print Assumptions new_matrix_low_rank.

(** C63.  hosvd_dense reproduces the tensor if and only if its unfoldings fit in the ranks. *)
Theorem hosvd_dense_low_rank :
  forall (R : comRingType) (qr : mat R -> res (mat R * mat R)) rand
         (rsvd : nat -> mat R -> nat -> res (mat R * list R * mat R)),
  (forall t, truncated_ok (rsvd t)) -> (forall t, lossless (rsvd t)) ->
  forall n0 r0 n1 r1 n2 r2 (x : ten R) fs core, twf x -> tshape x = (n0, n1, n2) ->
  hosvd_dense (0 : R) +%R *%R qr rand rsvd x (r0, r1, r2) = Ok (fs, core) ->
  (forall c, in_range (n0, n1, n2) c -> rep3 fs core c = tget 0 x c) <-> fits n0 r0 n1 r1 n2 r2 (tget 0 x).
Proof. exact: Exact_final.hosvd_dense_iff. Qed.
Print Assumptions hosvd_dense_low_rank.

(** C63.  hosvd on sparse data. *)
Theorem hosvd_low_rank :
  forall (R : comRingType) (qr : mat R -> res (mat R * mat R)) rand (svds_u : @coo R -> nat -> res (mat R)),
  svds_ok svds_u -> lossless_left svds_u ->
  forall n0 r0 n1 r1 n2 r2 inds (vals : list R) fs core,
  length vals = length inds -> List.Forall (in_range (n0, n1, n2)) inds ->
  hosvd (0 : R) +%R *%R qr rand svds_u inds vals (n0, n1, n2) (r0, r1, r2) = Ok (fs, core) ->
  (forall c, in_range (n0, n1, n2) c -> rep3 fs core c = dense (List.combine inds vals) c) <->
  fits n0 r0 n1 r1 n2 r2 (dense (List.combine inds vals)).
Proof. exact: Exact_final.hosvd_iff. Qed.
Print Assumptions hosvd_low_rank.

(** C63.  tucker2_dense, the identity in place of the factor of its mode. *)
Theorem tucker2_dense_low_rank :
  forall (R : comRingType) (qr : mat R -> res (mat R * mat R)) rand
         (rsvd : nat -> mat R -> nat -> res (mat R * list R * mat R)) svd_full,
  (forall t, truncated_ok (rsvd t)) -> (forall t, lossless (rsvd t)) -> svd_full_ok svd_full ->
  forall n0 r0 n1 r1 n2 r2 (x : ten R) im fa fb core, twf x -> tshape x = (n0, n1, n2) -> (im < 3)%N ->
  axis (r0, r1, r2) im = axis (n0, n1, n2) im ->
  tucker2_dense (0 : R) 1 +%R *%R qr rand rsvd svd_full x (r0, r1, r2) im = Ok (fa, fb, core) ->
  fits n0 r0 n1 r1 n2 r2 (tget 0 x) ->
  exists u v w,
  [/\ (fa, fb) = (if im is 0 then (v, w) else if im is 1 then (u, w) else (u, v)),
      if im is 0 then mx n0 n0 u = 1%:M else if im is 1 then mx n1 n1 v = 1%:M else mx n2 n2 w = 1%:M
    & forall c, in_range (n0, n1, n2) c -> rep u v w core c = tget 0 x c].
Proof. exact: Exact_main.tucker2_dense_low. Qed.
Print Assumptions tucker2_dense_low_rank.

(** Appending 4 u to 3 u, and the block 7 to a rank 2 factorisation of a matrix of rank 1. *)
Example append_low_rank_demo :
  [/\ truncated_ok Upd_wit.n_rsvd /\ lossless Upd_wit.n_rsvd,
      low_rank 1 (row_mx (mx 2 1 LinAlg_wit.demo_u *m smx 1 1 (SVec [:: 3%:Q]) *m mx 1 1 Hooi_wit.one11)
                         (mx 2 1 (mkMat 2 1 [:: frac 12 5; frac 16 5])))
    & LinAlg_wit.triple_is
        (update_svd_new_vectors 0 1 +%R *%R (fun x y => x - y) LinAlg_wit.demo_qr Upd_wit.n_rsvd (fun x => rat_le (frac 1 100) x)
           LinAlg_wit.demo_u (SVec [:: 3%:Q]) Hooi_wit.one11 (mkMat 2 1 [:: frac 12 5; frac 16 5]))
        LinAlg_wit.demo_u [:: 5%:Q] (mkMat 1 2 [:: frac 3 5; frac 4 5])].
Proof.
  split; [split; [exact: Upd_wit.n_rsvd_ok|exact: (proj1 Exact_wit.n_rsvd_exact)]|exact: Exact_wit.vectors_low|by vm_compute].
Qed.
Example append_block_low_rank_demo :
  [/\ svd_ok LinAlg_wit.demo_svd /\ nonneg_svd LinAlg_wit.demo_svd, truncated_ok Exact_wit.k_rsvd /\ lossless Exact_wit.k_rsvd,
      (mx 2 2 Exact_wit.k_u)^T *m mx 2 2 Exact_wit.k_u = 1%:M /\ mx 2 2 Exact_wit.k_v *m (mx 2 2 Exact_wit.k_v)^T = 1%:M,
      low_rank 2 (block_mx (mx 2 2 Exact_wit.k_u *m mx 2 2 Exact_wit.k_s *m mx 2 2 Exact_wit.k_v) 0 0 (mx 1 1 Exact_wit.k_new))
    & dg 2 [:: 5%:Q; 0] = mx 2 2 Exact_wit.k_s].
Proof.
  split; [exact: Exact_wit.k_svd|exact: Exact_wit.k_trunc|exact: Exact_wit.k_orth|exact: Exact_wit.k_low|exact: Exact_wit.k_dg].
Qed.
Example append_block_low_rank_demo_run :
  let go s := update_svd_new_submatrix 0 +%R *%R LinAlg_wit.demo_svd Exact_wit.k_rsvd rat_argsort
                Exact_wit.k_u s Exact_wit.k_v Exact_wit.k_new in
  all (fun s => LinAlg_wit.triple_is (go s) (mkMat 3 2 [:: 0; frac 3 5; 0; frac 4 5; 1; 0]) [:: 7%:Q; 5%:Q] (mkMat 2 3 [:: 0; 0; 1; 1; 0; 0]))
    [:: SMat Exact_wit.k_s; SVec [:: 5%:Q; 0]].
Proof. by vm_compute. Qed.

(** The rank one randomised SVD of (3 0; 4 0), sampled by one column. *)
Example random_low_rank_demo :
  [/\ qr_ok Exact_wit.s_qr, svd_ok Exact_wit.s_svd, descending_svd Exact_wit.s_svd,
      low_rank 1 (mx 2 2 LinAlg_wit.demo_da) /\
      (exists Y, mx 2 2 LinAlg_wit.demo_da
         = powers (mx 2 2 LinAlg_wit.demo_da) (mx 2 2 LinAlg_wit.demo_da *m mx 2 (1 + 0) (Upd_wit.r_randn 2 (1 + 0)%N)) 0 *m Y)
    & LinAlg_wit.triple_is (random_svd 0 +%R *%R Exact_wit.s_qr Exact_wit.s_svd Upd_wit.r_randn LinAlg_wit.demo_da 1 0 0)
        LinAlg_wit.demo_u [:: 5%:Q] (mkMat 1 2 [:: 1; 0])].
Proof.
  case: Exact_wit.s_contracts => H1 H2 H3.
  split; [exact: H1|exact: H2|exact: H3|exact: Exact_wit.s_low|by vm_compute].
Qed.

(** The tensor 25 u o u o 1 decomposed with rank one, dense and sparse. *)
Example one_pass_low_rank_demo :
  [/\ (forall t, truncated_ok (Exact_wit.x_rsvd t)) /\ (forall t, lossless (Exact_wit.x_rsvd t)),
      svds_ok Exact_wit.x_svds /\ lossless_left Exact_wit.x_svds, List.Forall (in_range (2, 2, 1)%N) Exact_wit.x_inds
    & fits 2 1 2 1 1 1 (tget 0 Exact_wit.x_ten)].
Proof. split; [exact: Exact_wit.x_rsvd_exact|exact: Exact_wit.x_svds_ok|exact: Exact_wit.x_range|exact: Exact_wit.x_fits]. Qed.
Example one_pass_low_rank_demo_run :
  let good r := match r with
    | Ok (fs, core) => all (fun c => rep3 fs core c == tget 0 Exact_wit.x_ten c) [:: (0, 0, 0); (0, 1, 0); (1, 0, 0); (1, 1, 0)]%N
    | Err _ => false end in
  good (hosvd_dense 0 +%R *%R Hooi_wit.h_qr Hooi_wit.h_rand Exact_wit.x_rsvd Exact_wit.x_ten (1, 1, 1)%N) &&
  good (hosvd 0 +%R *%R Hooi_wit.h_qr Hooi_wit.h_rand Exact_wit.x_svds Exact_wit.x_inds Exact_wit.x_vals (2, 2, 1)%N (1, 1, 1)%N) &&
  match tucker2_dense 0 1 +%R *%R Hooi_wit.h_qr Hooi_wit.h_rand Exact_wit.x_rsvd Hooi_wit.h_full Exact_wit.x_ten (1, 1, 1)%N 2 with
  | Ok (fa, fb, core) => good (Ok ((fa, fb, Hooi_wit.one11), core))
  | Err _ => false end.
Proof. by vm_compute. Qed.

(** A new user and a new item, block of ranks 2. *)
Example new_matrix_low_rank_demo :
  let T := block_tensor 3 2 2 1 (rep Upd_wit.b_u Upd_wit.b_v LinAlg_wit.demo_u Exact_wit.y_core)
             (dense (List.combine Upd_wit.b_inds Exact_wit.y_vals)) (Some Hooi_wit.h_att) LinAlg_wit.demo_u in
  [/\ (forall t, truncated_ok (Exact_wit.y_rsvd t)) /\ (forall t, lossless (Exact_wit.y_rsvd t)),
      low_rank 2 (unf 0 1 4 3 2 T) /\ low_rank 2 (unf 1 0 3 4 2 T)
    & match update_tucker_new_matrix 0 1 +%R *%R Hooi_wit.h_qr Hooi_wit.h_rand Hooi_wit.h_rand Exact_wit.y_rsvd Exact_wit.y_rsvd Hooi_wit.h_full
          Upd_wit.b_fs Exact_wit.y_core Upd_wit.b_inds Exact_wit.y_vals (1, 1, 2)%N (Some Hooi_wit.h_att) with
      | Ok (fs, core) => [&& rep3 fs core (3, 2, 0)%N == frac 12 5, rep3 fs core (3, 2, 1)%N == frac 16 5, rep3 fs core (3, 0, 0)%N == 0
                           & rep3 fs core (1, 1, 1)%N == rep3 Upd_wit.b_fs Exact_wit.y_core (1, 1, 1)%N]
      | Err _ => false end].
Proof. split; [exact: Exact_wit.y_rsvd_exact|exact: Exact_wit.y_low|by vm_compute]. Qed.
Example new_vectors_low_rank_demo :
  low_rank 1 (col_mx (unf 0 1 2 2 1 (rep3 Upd_wit.n_fs Upd_wit.n_core)) (mx 1 (2 * 1) Upd_wit.n_new)).
Proof. exact: Exact_wit.n_low. Qed.
