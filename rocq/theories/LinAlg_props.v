(** Properties C38 - C41 and the PSI half of C42: the projector-splitting step, appending
    to a decomposition, the randomised SVD, embeddings of new users and items. *)
From Verif Require Import Prelude Tensor_model Matrix_model Attention_model LinAlg_model.
Set Warnings "-notation-overridden".
From mathcomp Require Import all_ssreflect all_algebra.
From Verif Require Import LinAlg_spec LinAlg_tables.
From Verif Require LinAlg_psi LinAlg_vectors LinAlg_block LinAlg_emb LinAlg_wit.
Set Implicit Arguments.
Unset Strict Implicit.
Unset Printing Implicit Defensive.
Import GRing.Theory.
Local Open Scope ring_scope.

(** C38.  For consistent shapes only QR can raise; otherwise the new factors are
    orthonormal and their product is A0 + dA PV + PU dA - PU dA PV, where PU is the
    projector on the columns of U S + dA V. *)
Theorem psi_step_formula :
  forall (R : comRingType) (qr : mat R -> res (mat R * mat R)), qr_ok qr ->
  forall m n r (u : mat R) s vt da,
  shape m r u -> sshape r r s -> shape r n vt -> shape m n da ->
  match psi_step 0 +%R *%R (fun x y => x - y) qr u s vt da with
  | Err e => exists x, qr x = Err e
  | Ok (u1, s1, v1t) =>
    let k := minn m r in let l := minn n k in
    let A0 := mx m r u *m smx r r s *m mx r n vt in
    let dA := mx m n da in
    let PV := (mx r n vt)^T *m mx r n vt in
    let PU := mx m k u1 *m (mx m k u1)^T in
    [/\ shape m k u1, shape k l s1, shape l n v1t,
        (mx m k u1)^T *m mx m k u1 = 1%:M /\ mx l n v1t *m (mx l n v1t)^T = 1%:M
      & (exists X, mx m r u *m smx r r s + dA *m (mx r n vt)^T = mx m k u1 *m X)
        /\ mx m k u1 *m mx k l s1 *m mx l n v1t = A0 + dA *m PV + PU *m dA - PU *m dA *m PV]
  end.
Proof. exact: LinAlg_psi.psi_step_main. Qed.
Print Assumptions psi_step_formula.

(** C38.  No change for dA = 0; exact when the rows of dA lie in the span of V; exact
    when V is orthonormal and the columns of A0 + dA lie in the span of (A0 + dA) V. *)
Theorem psi_step_exact :
  forall (R : comRingType) (qr : mat R -> res (mat R * mat R)), qr_ok qr ->
  forall m n r (u : mat R) s vt da u1 s1 v1t,
  shape m r u -> sshape r r s -> shape r n vt -> shape m n da ->
  psi_step 0 +%R *%R (fun x y => x - y) qr u s vt da = Ok (u1, s1, v1t) ->
  let k := minn m r in let l := minn n k in
  let A0 := mx m r u *m smx r r s *m mx r n vt in
  let dA := mx m n da in
  let V := (mx r n vt)^T in
  let B := mx m k u1 *m mx k l s1 *m mx l n v1t in
  [/\ dA = 0 -> B = A0,
      dA *m V *m V^T = dA -> B = A0 + dA
    & V^T *m V = 1%:M -> (exists X, A0 + dA = (A0 + dA) *m V *m X) -> B = A0 + dA].
Proof. exact: LinAlg_psi.psi_step_exact_main. Qed.
Print Assumptions psi_step_exact.

(** C39.  The inner matrix, multiplied by the outer factors, is [U S V' | N], with or
    without re-orthogonalisation; the returned factors are the outer factors times the
    factors of the inner SVD.  Only QR and the inner SVD can raise. *)
Theorem append_vectors_product :
  forall (R : comRingType) (qr : mat R -> res (mat R * mat R))
         (rsvd : mat R -> nat -> res (mat R * list R * mat R)) (exceeds_eps : R -> bool),
  qr_ok qr -> rsvd_ok rsvd ->
  forall m r q nc u s vt nv,
  shape m r u -> sshape r r s -> shape r q vt -> shape m nc nv -> (nc <= m)%N -> (0 < r + nc)%N ->
  match update_svd_new_vectors 0 1 +%R *%R (fun x y => x - y) qr rsvd exceeds_eps u s vt nv with
  | Err e => (exists x, qr x = Err e) \/ (exists x, rsvd x r = Err e)
  | Ok (u2, s2, v2t) =>
    let A := mx m r u *m smx r r s *m mx r q vt in
    exists p dq u1 vt1 (L : 'M[R]_(m, p)) (W : 'M[R]_(r + nc, q + nc)) l,
    [/\ [/\ rsvd dq r = Ok (u1, s2, vt1), shape p (r + nc) dq & (minn m (r + nc) <= p <= r + nc)%N],
        L *m mx p (r + nc) dq *m W = row_mx A (mx m nc nv),
        [/\ shape m l u2, size s2 = l, shape l (q + nc) v2t, shape p l u1 & shape l (r + nc) vt1],
        mx m l u2 = L *m mx p l u1 /\ mx l (q + nc) v2t = mx l (r + nc) vt1 *m W
      & (mx r q vt *m (mx r q vt)^T = 1%:M -> W *m W^T = 1%:M) /\
        ((mx m r u)^T *m mx m r u = 1%:M ->
         (exists L, L *m (mx m nc nv - mx m r u *m ((mx m r u)^T *m mx m nc nv)) = 1%:M) -> L^T *m L = 1%:M) /\
        ((mx m r u)^T *m mx m r u = 1%:M -> mx r q vt *m (mx r q vt)^T = 1%:M ->
         exists K : 'M_(p, m), mx p (r + nc) dq = K *m row_mx A (mx m nc nv) *m W^T) /\
        ((mx m r u)^T *m mx m r u = 1%:M ->
         (L *m mx p (r + nc) dq)^T *m (L *m mx p (r + nc) dq) = (mx p (r + nc) dq)^T *m mx p (r + nc) dq)]
  end.
Proof. exact: LinAlg_vectors.update_main. Qed.
Print Assumptions append_vectors_product.

(** C39.  The error is the image of the error of the inner SVD, so an exact inner SVD
    reproduces [U S V' | N]; orthonormality is kept (on the left if the part of N outside
    the span of U has full column rank). *)
Theorem append_vectors_exact :
  forall (R : comRingType) (qr : mat R -> res (mat R * mat R))
         (rsvd : mat R -> nat -> res (mat R * list R * mat R)) (exceeds_eps : R -> bool),
  qr_ok qr -> rsvd_ok rsvd ->
  forall m r q nc u s vt nv u2 s2 v2t,
  shape m r u -> sshape r r s -> shape r q vt -> shape m nc nv -> (nc <= m)%N -> (0 < r + nc)%N ->
  update_svd_new_vectors 0 1 +%R *%R (fun x y => x - y) qr rsvd exceeds_eps u s vt nv = Ok (u2, s2, v2t) ->
  let A := mx m r u *m smx r r s *m mx r q vt in
  exists p dq u1 vt1 (L : 'M[R]_(m, p)) (W : 'M[R]_(r + nc, q + nc)) l,
  [/\ rsvd dq r = Ok (u1, s2, vt1),
      [/\ shape m l u2, size s2 = l & shape l (q + nc) v2t],
      mx m l u2 *m dg l s2 *m mx l (q + nc) v2t - row_mx A (mx m nc nv)
      = L *m (mx p l u1 *m dg l s2 *m mx l (r + nc) vt1 - mx p (r + nc) dq) *m W,
      mx p l u1 *m dg l s2 *m mx l (r + nc) vt1 = mx p (r + nc) dq ->
      mx m l u2 *m dg l s2 *m mx l (q + nc) v2t = row_mx A (mx m nc nv)
    & (mx r q vt *m (mx r q vt)^T = 1%:M -> mx l (r + nc) vt1 *m (mx l (r + nc) vt1)^T = 1%:M ->
       mx l (q + nc) v2t *m (mx l (q + nc) v2t)^T = 1%:M) /\
      ((mx m r u)^T *m mx m r u = 1%:M ->
       (exists L, L *m (mx m nc nv - mx m r u *m ((mx m r u)^T *m mx m nc nv)) = 1%:M) ->
       (mx p l u1)^T *m mx p l u1 = 1%:M -> (mx m l u2)^T *m mx m l u2 = 1%:M)].
Proof. exact: LinAlg_vectors.update_error_main. Qed.
Print Assumptions append_vectors_exact.

(** C39.  More new vectors than rows is never accepted: ValueError, unless a routine raised before. *)
Theorem append_vectors_too_many :
  forall (R : comRingType) (qr : mat R -> res (mat R * mat R))
         (rsvd : mat R -> nat -> res (mat R * list R * mat R)) (exceeds_eps : R -> bool),
  qr_ok qr -> rsvd_ok rsvd ->
  forall m r q nc u s vt nv,
  shape m r u -> sshape r r s -> shape r q vt -> shape m nc nv -> (m < nc)%N ->
  exists2 e, update_svd_new_vectors 0 1 +%R *%R (fun x y => x - y) qr rsvd exceeds_eps u s vt nv = Err e
    & e = ValueError \/ (exists x, qr x = Err e) \/ (exists x, rsvd x r = Err e).
Proof. exact: LinAlg_vectors.update_too_many_main. Qed.
Print Assumptions append_vectors_too_many.

(** C40.  Vector of singular values: the r largest of the merged values are kept, in
    descending order, each with its own pair of vectors; all merged triples multiply to
    diag(A, N), and so do the kept ones if the dropped values are 0. *)
Theorem append_block_keeps_largest :
  forall (R : comRingType) (svd : mat R -> res (mat R * list R * mat R))
         (rsvd : mat R -> nat -> res (mat R * list R * mat R))
         (argsort : list R -> list nat) (le : R -> R -> bool),
  svd_ok svd -> argsort_ok le argsort ->
  forall m r n a b u s vt nm,
  shape m r u -> size s = r -> shape r n vt -> shape a b nm ->
  match update_svd_new_submatrix 0 +%R *%R svd rsvd argsort u (SVec s) vt nm with
  | Err e => svd nm = Err e
  | Ok (u2, s2, v2t) =>
    let k := minn a b in
    let A := mx m r u *m dg r s *m mx r n vt in
    exists u1 s1 v1t, svd nm = Ok (u1, s1, v1t) /\
    let U := block_mx (mx m r u) 0 0 (mx a k u1) in
    let V := block_mx (mx r n vt) 0 0 (mx k b v1t) in
    exists idx rest,
    [/\ [/\ shape (m + a) r u2, size s2 = r & shape r (n + b) v2t],
        [/\ perm_eq (idx ++ rest) (iota 0 (r + k)), size idx = r,
            forall x y, x \in idx -> y \in rest -> le (nth 0 (s ++ s1) y) (nth 0 (s ++ s1) x)
          & forall i j, (i < j < r)%N -> le (nth 0 s2 j) (nth 0 s2 i)],
        [/\ forall i j (t : 'I_(r + k)), (j < r)%N -> nth 0%N idx j = t -> mget 0 u2 (i : 'I_(m + a)) j = U i t,
            forall j, (j < r)%N -> nth 0 s2 j = nth 0 (s ++ s1) (nth 0%N idx j)
          & forall i j (t : 'I_(r + k)), (j < r)%N -> nth 0%N idx j = t -> mget 0 v2t j (i : 'I_(n + b)) = V t i],
        U *m dg (r + k) (s ++ s1) *m V = block_mx A 0 0 (mx a b nm)
      & [/\ (forall y, y \in rest -> nth 0 (s ++ s1) y = 0) ->
             mx (m + a) r u2 *m dg r s2 *m mx r (n + b) v2t = block_mx A 0 0 (mx a b nm),
            (mx m r u)^T *m mx m r u = 1%:M -> (mx (m + a) r u2)^T *m mx (m + a) r u2 = 1%:M
          & mx r n vt *m (mx r n vt)^T = 1%:M -> mx r (n + b) v2t *m (mx r (n + b) v2t)^T = 1%:M]]
  end.
Proof. exact: LinAlg_block.update_vec_main. Qed.
Print Assumptions append_block_keeps_largest.

(** C40.  General middle factor: the error against diag(A, N) is the image of the error
    of the inner SVD; orthonormality is kept. *)
Theorem append_block_matrix :
  forall (R : comRingType) (svd : mat R -> res (mat R * list R * mat R))
         (rsvd : mat R -> nat -> res (mat R * list R * mat R)) (argsort : list R -> list nat),
  svd_ok svd -> rsvd_ok rsvd ->
  forall m r l n a b u s vt nm,
  shape m r u -> shape r l s -> shape l n vt -> shape a b nm ->
  match update_svd_new_submatrix 0 +%R *%R svd rsvd argsort u (SMat s) vt nm with
  | Err e => svd nm = Err e \/ exists x, rsvd x r = Err e
  | Ok (u2, s2, v2t) =>
    let k := minn a b in
    let A := mx m r u *m mx r l s *m mx l n vt in
    exists d u1 v1t (L : 'M[R]_(m + a, r + k)) (W : 'M[R]_(l + k, n + b)) c,
    [/\ rsvd d r = Ok (u1, s2, v1t) /\ shape (r + k) (l + k) d,
        [/\ shape (m + a) c u2, size s2 = c & shape c (n + b) v2t],
        mx (m + a) c u2 *m dg c s2 *m mx c (n + b) v2t - block_mx A 0 0 (mx a b nm)
        = L *m (mx (r + k) c u1 *m dg c s2 *m mx c (l + k) v1t - mx (r + k) (l + k) d) *m W,
        mx (r + k) c u1 *m dg c s2 *m mx c (l + k) v1t = mx (r + k) (l + k) d ->
        mx (m + a) c u2 *m dg c s2 *m mx c (n + b) v2t = block_mx A 0 0 (mx a b nm)
      & ((mx m r u)^T *m mx m r u = 1%:M -> (mx (r + k) c u1)^T *m mx (r + k) c u1 = 1%:M ->
         (mx (m + a) c u2)^T *m mx (m + a) c u2 = 1%:M) /\
        (mx l n vt *m (mx l n vt)^T = 1%:M -> mx c (l + k) v1t *m (mx c (l + k) v1t)^T = 1%:M ->
         mx c (n + b) v2t *m (mx c (n + b) v2t)^T = 1%:M) /\
        ((mx m r u)^T *m mx m r u = 1%:M -> mx l n vt *m (mx l n vt)^T = 1%:M ->
         mx (r + k) (l + k) d = L^T *m block_mx A 0 0 (mx a b nm) *m W^T)]
  end.
Proof. exact: LinAlg_block.update_mat_main. Qed.
Print Assumptions append_block_matrix.

(** C41.  Before truncation the factors multiply to Q Q' X, where Q is orthonormal and
    spans the sampled range (X X')^t X P; truncation keeps the leading triples. *)
Theorem random_svd_projection :
  forall (R : comRingType) (qr : mat R -> res (mat R * mat R))
         (svd : mat R -> res (mat R * list R * mat R)) (randn : nat -> nat -> mat R),
  qr_ok qr -> svd_ok svd -> randn_ok randn ->
  forall m n x rank npow os, shape m n x ->
  match random_svd 0 +%R *%R qr svd randn x rank npow os with
  | Err e => exists y, qr y = Err e \/ svd y = Err e
  | Ok (u, s, vt) =>
    let K := minn m (rank + os) in let k := minn K n in let l := minn rank k in
    let sampled := powers (mx m n x) (mx m n x *m mx n (rank + os) (randn n (rank + os)%N)) npow in
    exists (q : 'M[R]_(m, K)) (uf : mat R) (sf : list R) (vf : mat R),
    [/\ q^T *m q = 1%:M, exists T, sampled = q *m T,
        [/\ size sf = k, mx m k uf *m dg k sf *m mx k n vf = q *m q^T *m mx m n x & exists y uy, svd y = Ok (uy, sf, vf)],
        (mx m k uf)^T *m mx m k uf = 1%:M /\ mx k n vf *m (mx k n vf)^T = 1%:M
      & [/\ shape m l u, s = take rank sf, shape l n vt, mx m l u = mx m l uf & mx l n vt = mx l n vf]]
  end.
Proof. exact: LinAlg_psi.random_svd_main. Qed.
Print Assumptions random_svd_projection.

(** C41.  The returned vectors are orthonormal; the product is X whenever rank is at
    least the number of rows, or at least the number of columns with a sample covering
    the columns of X. *)
Theorem random_svd_exact :
  forall (R : comRingType) (qr : mat R -> res (mat R * mat R))
         (svd : mat R -> res (mat R * list R * mat R)) (randn : nat -> nat -> mat R),
  qr_ok qr -> svd_ok svd -> randn_ok randn ->
  forall m n x rank npow os u s vt, shape m n x ->
  random_svd 0 +%R *%R qr svd randn x rank npow os = Ok (u, s, vt) ->
  let l := minn rank (minn (minn m (rank + os)) n) in
  let sampled := powers (mx m n x) (mx m n x *m mx n (rank + os) (randn n (rank + os)%N)) npow in
  let B := mx m l u *m dg l s *m mx l n vt in
  [/\ [/\ shape m l u, size s = l & shape l n vt],
      (mx m l u)^T *m mx m l u = 1%:M /\ mx l n vt *m (mx l n vt)^T = 1%:M,
      (m <= rank)%N -> B = mx m n x
    & (n <= rank)%N -> (exists Y, mx m n x = sampled *m Y) -> B = mx m n x].
Proof. exact: LinAlg_psi.random_svd_exact_main. Qed.
Print Assumptions random_svd_exact.

(** C42.  Zero embeddings: the score matrix gains zero rows (users) or zero columns (items). *)
Theorem zero_embeddings_keep_scores :
  forall (R : comRingType) mode m r l n c (u : mat R) s vt,
  shape m r u -> sshape r l s -> shape l n vt ->
  exists u2 v2t, psi_add_zero 0 mode c u s vt = Ok (u2, s, v2t) /\
  match mode with
  | EUsers => [/\ shape (m + c) r u2, v2t = vt
                & mx (m + c) r u2 *m smx r l s *m mx l n v2t = col_mx (mx m r u *m smx r l s *m mx l n vt) 0]
  | EItems => [/\ u2 = u, shape l (n + c) v2t
                & mx m r u2 *m smx r l s *m mx l (n + c) v2t = row_mx (mx m r u *m smx r l s *m mx l n vt) 0]
  end.
Proof. exact: LinAlg_emb.add_zero_main. Qed.
Print Assumptions zero_embeddings_keep_scores.

(** C42.  Random embeddings of new users: known users keep their scores. *)
Theorem random_user_embeddings_keep_scores :
  forall (R : comRingType) (qr : mat R -> res (mat R * mat R)) (normal : nat -> nat -> mat R),
  qr_ok qr -> randn_ok normal ->
  forall m r l n c u s vt, shape m r u -> sshape r l s -> shape l n vt ->
  match psi_add_random 0 +%R *%R qr normal EUsers c u s vt with
  | Err e => exists x, qr x = Err e
  | Ok (u2, s2, v2t) =>
    let k := minn (m + c) r in
    [/\ shape (m + c) k u2, sshape k l s2, v2t = vt, (mx (m + c) k u2)^T *m mx (m + c) k u2 = 1%:M
      & mx (m + c) k u2 *m smx k l s2 *m mx l n v2t
        = col_mx (mx m r u *m smx r l s *m mx l n vt)
                 (dsubmx (mx (m + c) r (normal (m + c)%N r)) *m smx r l s *m mx l n vt)]
  end.
Proof. exact: LinAlg_emb.add_random_users_main. Qed.
Print Assumptions random_user_embeddings_keep_scores.

(** C42.  Random embeddings of new items: with the middle factor S r' the known scores
    would be kept; the code stores r S, off by U (r S - S r') V2. *)
Theorem random_item_embeddings_error :
  forall (R : comRingType) (qr : mat R -> res (mat R * mat R)) (normal : nat -> nat -> mat R),
  qr_ok qr -> randn_ok normal ->
  forall m r n c u s vt u2 s2 v2t, shape m r u -> sshape r r s -> shape r n vt ->
  (r <= n + c)%N ->
  psi_add_random 0 +%R *%R qr normal EItems c u s vt = Ok (u2, s2, v2t) ->
  let A := mx m r u *m smx r r s *m mx r n vt in
  let E := dsubmx (mx (n + c) r (normal (n + c)%N r)) in
  exists rr : 'M[R]_r,
  [/\ u2 = u, sshape r r s2, shape r (n + c) v2t,
      mx m r u *m (smx r r s *m rr^T) *m mx r (n + c) v2t = row_mx A (mx m r u *m smx r r s *m E^T)
    & mx m r u2 *m smx r r s2 *m mx r (n + c) v2t
      = row_mx A (mx m r u *m smx r r s *m E^T) + mx m r u *m (rr *m smx r r s - smx r r s *m rr^T) *m mx r (n + c) v2t].
Proof. exact: LinAlg_emb.add_random_items_error_main. Qed.
Print Assumptions random_item_embeddings_error.

(** C42.  With orthonormal factors and an exact QR the score of a known user for a known
    item changes from 0 to 9/20. *)
Theorem random_item_embeddings_refuted :
  exists (qr : mat rat -> res (mat rat * mat rat)) normal u s vt u2 s2 v2t,
  qr_ok qr /\ randn_ok normal /\ shape 2 2 u /\ sshape 2 2 s /\ shape 2 2 vt
  /\ (mx 2 2 u)^T *m mx 2 2 u = 1%:M /\ mx 2 2 vt *m (mx 2 2 vt)^T = 1%:M
  /\ psi_add_random 0 +%R *%R qr normal EItems 1 u s vt = Ok (u2, s2, v2t)
  /\ (mx 2 2 u *m smx 2 2 s *m mx 2 2 vt) 0 (lift 0 0) = 0
  /\ (mx 2 2 u2 *m smx 2 2 s2 *m mx 2 3 v2t) 0 (lift 0 0) = 9%:Q / 20%:Q.
Proof. exact: LinAlg_wit.random_item_embeddings_witness. Qed.
Print Assumptions random_item_embeddings_refuted.

(** The oracles of the concrete runs satisfy the contracts. *)
Example demo_contracts :
  [/\ qr_ok LinAlg_wit.demo_qr, svd_ok LinAlg_wit.demo_svd, rsvd_ok LinAlg_wit.demo_rsvd
    & argsort_ok rat_le rat_argsort].
Proof.
  split; [by apply: qr_table_ok; vm_compute|by apply: svd_table_ok; vm_compute|by apply: rsvd_table_ok; vm_compute|].
  exact: rat_argsort_ok.
Qed.

(** A0 = (3 0; 4 0), dA = (3 0; 4 0): the step returns the factors of (6 0; 8 0). *)
Example psi_step_demo :
  LinAlg_wit.triple_is_mat
    (psi_step 0 +%R *%R (fun x y => x - y) LinAlg_wit.demo_qr LinAlg_wit.demo_u (SVec [:: 5%:Q]) LinAlg_wit.demo_e1 LinAlg_wit.demo_da)
    LinAlg_wit.demo_u (mkMat 1 1 [:: 10%:Q]) LinAlg_wit.demo_e1.
Proof. by vm_compute. Qed.

(** Appending the column 4 u to u * 3: rank stays 1, result u * 5 * (3/5, 4/5). *)
Example append_vectors_demo :
  LinAlg_wit.triple_is
    (update_svd_new_vectors 0 1 +%R *%R (fun x y => x - y) LinAlg_wit.demo_qr LinAlg_wit.demo_rsvd (fun x => rat_le (frac 1 100) x)
       LinAlg_wit.demo_u (SVec [:: 3%:Q]) (mkMat 1 1 [:: 1]) (mkMat 2 1 [:: frac 12 5; frac 16 5]))
    LinAlg_wit.demo_u [:: 5%:Q] (mkMat 1 2 [:: frac 3 5; frac 4 5]).
Proof. by vm_compute. Qed.

(** Appending the block (7) to u * 5: the value 7 replaces 5; same with a general middle factor. *)
Example append_block_demo :
  LinAlg_wit.triple_is
    (update_svd_new_submatrix 0 +%R *%R LinAlg_wit.demo_svd LinAlg_wit.demo_rsvd rat_argsort
       LinAlg_wit.demo_u (SVec [:: 5%:Q]) (mkMat 1 1 [:: 1]) (mkMat 1 1 [:: 7%:Q]))
    (mkMat 3 1 [:: 0; 0; 1]) [:: 7%:Q] (mkMat 1 2 [:: 0; 1])
  && LinAlg_wit.triple_is
    (update_svd_new_submatrix 0 +%R *%R LinAlg_wit.demo_svd LinAlg_wit.demo_rsvd rat_argsort
       LinAlg_wit.demo_u (SMat (mkMat 1 1 [:: 5%:Q])) (mkMat 1 1 [:: 1]) (mkMat 1 1 [:: 7%:Q]))
    (mkMat 3 1 [:: 0; 0; 1]) [:: 7%:Q] (mkMat 1 2 [:: 0; 1]).
Proof. by vm_compute. Qed.

(** Rank 1 randomised SVD of the column (3, 4) with one power iteration. *)
Example random_svd_demo :
  LinAlg_wit.triple_is
    (random_svd 0 +%R *%R LinAlg_wit.demo_qr LinAlg_wit.demo_svd (fun r c => build r c (fun _ _ => 1)) (mkMat 2 1 [:: 3%:Q; 4%:Q]) 1 1 0)
    LinAlg_wit.demo_u [:: 5%:Q] (mkMat 1 1 [:: 1]).
Proof. by vm_compute. Qed.

(** One new user with zero embedding; one new item appended to V = (1, 0). *)
Example zero_embeddings_demo :
  match psi_add_zero 0 EUsers 1 LinAlg_wit.demo_u (SVec [:: 5%:Q]) LinAlg_wit.demo_e1,
        psi_add_zero 0 EItems 1 LinAlg_wit.demo_u (SVec [:: 5%:Q]) LinAlg_wit.demo_e1 with
  | Ok (u, _, _), Ok (_, _, vt) =>
    same u (mkMat 3 1 [:: frac 3 5; frac 4 5; 0]) && same vt (mkMat 1 3 [:: 1; 0; 0])
  | _, _ => false
  end.
Proof. by vm_compute. Qed.
