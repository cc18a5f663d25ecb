(** Properties C71 to C74: the step-by-step experiments of the paper (new rows or columns, new
    diagonal blocks, a list of matrices followed by projector splitting, the numerical
    experiment).  [w] is the width of the steps, [i0] the size of the first part. *)
From Coq Require Import ZArith QArith.
From Verif Require Import Prelude Tensor_model Matrix_model Matrix_spec Attention_model LinAlg_model Steps_model Steps_ratio.
Set Warnings "-notation-overridden".
From mathcomp Require Import all_ssreflect all_algebra.
From Verif Require Import LinAlg_spec LinAlg_tables Upd_spec Exact_spec Steps_spec.
From Verif Require Steps_full Steps_main Steps_block Steps_psi Steps_num Steps_wit Exact_wit LinAlg_wit.
Set Implicit Arguments.
Unset Strict Implicit.
Unset Printing Implicit Defensive.
Import GRing.Theory.
Local Open Scope ring_scope.

(** C71.  A generated matrix has the sizes asked for and at most the rank asked for. *)
Theorem generated_matrix_rank :
  forall (R : realFieldType) (qr : mat R -> res (mat R * mat R)), qr_ok qr ->
  forall draw drawv m n rank,
  (forall k i j, shape i j (draw k i j)) -> (forall k, size (drawv k) = k) -> (rank <= minn m n)%N ->
  match generate_matrix 0 +%R *%R qr draw drawv m n rank with
  | Err e => exists x, qr x = Err e
  | Ok c => shape m n c /\ (\rank (mx m n c) <= rank)%N
  end.
Proof. exact: Steps_main.generate_main. Qed.
Print Assumptions generated_matrix_rank.

(** C71.  The reported error is the root of the mean squared difference over the mean square
    of the target plus EPS; without cells it is nan. *)
Theorem relative_error_value :
  forall (R : realFieldType) (sqrt : R -> R) (eps : R) m n (a b : mat R), shape m n a -> shape m n b ->
  sqrt_err_relative_mtx 0 +%R *%R (fun x y => x - y) (fun x y => x / y) (fun k => k%:R) sqrt eps a b
  = Ok (if (m * n == 0)%N then None else Some (relative_error sqrt eps (mx m n a) (mx m n b))).
Proof. exact: Steps_main.err_main. Qed.
Print Assumptions relative_error_value.

(** C71.  New rows or columns, a fresh SVD at every step: the error is zero exactly at the
    steps whose target fits in the rank. *)
Theorem refit_errors :
  forall (R : realFieldType) (rsvd : mat R -> nat -> res (mat R * list R * mat R)) (sqrt : R -> R) (eps : R),
  truncated_ok rsvd -> lossless rsvd -> sqrt_ok sqrt -> 0 < eps ->
  forall axis n c rank rf rn i0 w,
  shape n n c -> fraction rf -> nonneg rn -> part_of n rf i0 -> part_of (n - i0) rn w -> (0 < i0)%N ->
  match dynamics_vec 0 +%R *%R (fun x y => x - y) (fun x y => x / y) (fun k => k%:R) sqrt eps
          (get_svd_triple rsvd) axis c rank rf rn with
  | Err e => w = 0%N /\ e = ZeroDivisionError \/ exists x r, rsvd x r = Err e
  | Ok recs => (0 < w)%N /\ exists K, [/\ (n - i0 <= K * w < n - i0 + w)%N, size recs = K.+1
      & forall k x, List.nth_error recs k = Some x ->
          measures x (leading axis n (minn n (i0 + k * w)) c) rank True]
  end.
Proof. exact: Steps_main.vec_baseline. Qed.
Print Assumptions refit_errors.

(** C71.  The incremental update keeps the rank min(rank, i0) of the first part for ever: an
    error of zero means that the target fits in that rank, and conversely when the first part
    has that rank. *)
Theorem incremental_errors :
  forall (R : realFieldType) (qr : mat R -> res (mat R * mat R)) (rsvd : mat R -> nat -> res (mat R * list R * mat R))
         (exceeds_eps : R -> bool) (sqrt : R -> R) (eps : R),
  qr_ok qr -> truncated_ok rsvd -> lossless rsvd -> sqrt_ok sqrt -> 0 < eps ->
  forall axis n c rank rf rn i0 w,
  shape n n c -> fraction rf -> nonneg rn -> part_of n rf i0 -> part_of (n - i0) rn w -> (0 < i0)%N ->
  match dynamics_vec 0 +%R *%R (fun x y => x - y) (fun x y => x / y) (fun k => k%:R) sqrt eps
          (get_incremental_svd_triple 0 1 +%R *%R (fun x y => x - y) qr rsvd exceeds_eps axis) axis c rank rf rn with
  | Err e => w = 0%N /\ e = ZeroDivisionError \/ (exists x, qr x = Err e) \/ exists x r, rsvd x r = Err e
  | Ok recs => (0 < w)%N /\ exists K, [/\ (n - i0 <= K * w < n - i0 + w)%N, size recs = K.+1
      & forall k x, List.nth_error recs k = Some x ->
          measures x (leading axis n (minn n (i0 + k * w)) c) (minn rank i0)
            (\rank (leading axis n i0 c) = minn rank i0)]
  end.
Proof. exact: Steps_main.vec_incremental. Qed.
Print Assumptions incremental_errors.

(** C71.  From the random draws to the errors: with a fresh SVD all the errors are zero; with
    the incremental update they are if the first part has full rank. *)
Theorem generated_refit_exact :
  forall (R : realFieldType) (qr : mat R -> res (mat R * mat R)) (rsvd : mat R -> nat -> res (mat R * list R * mat R))
         (sqrt : R -> R) (eps : R),
  qr_ok qr -> truncated_ok rsvd -> lossless rsvd -> sqrt_ok sqrt -> 0 < eps ->
  forall draw drawv, (forall k i j, shape i j (draw k i j)) -> (forall k, size (drawv k) = k) ->
  forall axis n rank rf rn i0 w,
  (rank <= n)%N -> fraction rf -> nonneg rn -> part_of n rf i0 -> part_of (n - i0) rn w -> (0 < i0)%N ->
  match get_dynamics_vec 0 +%R *%R (fun x y => x - y) (fun x y => x / y) (fun k => k%:R) qr sqrt eps
          (get_svd_triple rsvd) draw drawv n rank rf rn axis with
  | Err e => w = 0%N /\ e = ZeroDivisionError \/ (exists x, qr x = Err e) \/ exists x r, rsvd x r = Err e
  | Ok recs => forall x, List.In x recs -> x.1 = Some 0
  end.
Proof. exact: Steps_full.full_refit. Qed.
Print Assumptions generated_refit_exact.

Theorem generated_incremental_exact :
  forall (R : realFieldType) (qr : mat R -> res (mat R * mat R)) (rsvd : mat R -> nat -> res (mat R * list R * mat R))
         (sqrt : R -> R) (eps : R),
  qr_ok qr -> truncated_ok rsvd -> lossless rsvd -> sqrt_ok sqrt -> 0 < eps ->
  forall draw drawv, (forall k i j, shape i j (draw k i j)) -> (forall k, size (drawv k) = k) ->
  forall exceeds_eps axis n rank rf rn i0 w c,
  (rank <= n)%N -> fraction rf -> nonneg rn -> part_of n rf i0 -> part_of (n - i0) rn w -> (0 < i0)%N ->
  generate_matrix 0 +%R *%R qr draw drawv n n rank = Ok c -> \rank (leading axis n i0 c) = rank ->
  match get_dynamics_vec 0 +%R *%R (fun x y => x - y) (fun x y => x / y) (fun k => k%:R) qr sqrt eps
          (get_incremental_svd_triple 0 1 +%R *%R (fun x y => x - y) qr rsvd exceeds_eps axis) draw drawv n rank rf rn axis with
  | Err e => w = 0%N /\ e = ZeroDivisionError \/ (exists x, qr x = Err e) \/ exists x r, rsvd x r = Err e
  | Ok recs => forall x, List.In x recs -> x.1 = Some 0
  end.
Proof.
  move=> R qr rsvd sqrt eps QR TR LL SQ EP draw drawv D1 D2 ex axis n rank rf rn i0 w c H1 H2 H3 H4 H5 H6 H7 H8.
  exact: (Steps_full.full_incremental ex QR TR LL SQ EP D1 D2 H1 H2 H3 H4 H5 H6 H7 H8).
Qed.
Print Assumptions generated_incremental_exact.

(** C71.  With a first part smaller than the rank the incremental error does not vanish on a
    matrix of that rank, while the fresh SVD is exact. *)
Theorem incremental_exact_refuted :
  exists (qr : mat rat -> res (mat rat * mat rat)) rsvd exceeds_eps sqrt eps c rank rf rn recs recs' e,
  [/\ qr_ok qr, truncated_ok rsvd, lossless rsvd, sqrt_ok sqrt & 0 < eps] /\
  [/\ shape 2 2 c, fraction rf, nonneg rn, part_of 2 rf 1 & part_of (2 - 1) rn 1] /\ (\rank (mx 2 2 c) <= rank)%N /\
  let run f := dynamics_vec 0 +%R *%R (fun x y => x - y) (fun x y => x / y) (fun k => k%:R) sqrt eps f Cols c rank rf rn in
  [/\ run (get_svd_triple rsvd) = Ok recs, List.nth_error recs 1 = Some (Some 0, (2, 2)%N),
      run (get_incremental_svd_triple 0 1 +%R *%R (fun x y => x - y) qr rsvd exceeds_eps Cols) = Ok recs',
      List.nth_error recs' 1 = Some (Some e, (2, 2)%N) & e <> 0].
Proof. exact: Steps_wit.incremental_stuck. Qed.
Print Assumptions incremental_exact_refuted.

(** C72.  New diagonal blocks, a fresh SVD at every step: the error is zero exactly at the
    steps whose block-diagonal target fits in the rank. *)
Theorem block_refit_errors :
  forall (R : realFieldType) (rsvd : mat R -> nat -> res (mat R * list R * mat R)) (sqrt : R -> R) (eps : R),
  truncated_ok rsvd -> lossless rsvd -> sqrt_ok sqrt -> 0 < eps ->
  forall n c rank rf rn i0 w,
  shape n n c -> fraction rf -> nonneg rn -> part_of n rf i0 -> part_of (n - i0) rn w -> (0 < i0)%N ->
  match dynamics_mtx 0 +%R *%R (fun x y => x - y) (fun x y => x / y) (fun k => k%:R) sqrt eps
          (get_svd_triple rsvd) c rank rf rn with
  | Err e => w = 0%N /\ e = ZeroDivisionError \/ exists x r, rsvd x r = Err e
  | Ok recs => (0 < w)%N /\ exists K, [/\ (K * w <= n - i0 < K * w + w)%N, size recs = K.+1
      & forall k x, List.nth_error recs k = Some x ->
          x.2 = (block_start i0 w k.+1, block_start i0 w k.+1) /\
          exists2 e, x.1 = Some e & 0 <= e /\
            (e = 0 <-> (\rank (diagonal_part (block_start i0 w) k.+1 c (block_start i0 w k.+1)) <= rank)%N)]
  end.
Proof. exact: Steps_block.block_baseline_main. Qed.
Print Assumptions block_refit_errors.

(** C72.  The incremental update with blocks: the same with the rank min(rank, i0). *)
Theorem block_incremental_errors :
  forall (R : realFieldType) (svd : mat R -> res (mat R * list R * mat R))
         (rsvd : mat R -> nat -> res (mat R * list R * mat R)) (argsort : list R -> list nat) (sqrt : R -> R) (eps : R),
  svd_ok svd -> nonneg_svd svd -> argsort_ok (fun x y => x <= y) argsort ->
  truncated_ok rsvd -> lossless rsvd -> nonneg_rsvd rsvd -> sqrt_ok sqrt -> 0 < eps ->
  forall n c rank rf rn i0 w,
  shape n n c -> fraction rf -> nonneg rn -> part_of n rf i0 -> part_of (n - i0) rn w -> (0 < i0)%N ->
  match dynamics_mtx 0 +%R *%R (fun x y => x - y) (fun x y => x / y) (fun k => k%:R) sqrt eps
          (get_incremental_svd_triple_block 0 +%R *%R svd rsvd argsort) c rank rf rn with
  | Err e => w = 0%N /\ e = ZeroDivisionError \/ (exists x, svd x = Err e) \/ exists x r, rsvd x r = Err e
  | Ok recs => (0 < w)%N /\ exists K, [/\ (K * w <= n - i0 < K * w + w)%N, size recs = K.+1
      & forall k x, List.nth_error recs k = Some x ->
          x.2 = (block_start i0 w k.+1, block_start i0 w k.+1) /\
          exists2 e, x.1 = Some e & 0 <= e /\
            (e = 0 <-> (\rank (diagonal_part (block_start i0 w) k.+1 c (block_start i0 w k.+1)) <= minn rank i0)%N)]
  end.
Proof. exact: Steps_block.block_incremental_main. Qed.
Print Assumptions block_incremental_errors.

(** C72.  When the ratio divides the rest exactly, the rank chosen for the generated matrix
    makes every block-diagonal target fit in the rank. *)
Theorem block_rank_budget :
  forall (R : realFieldType) n (c : mat R) rank rn i0 w s,
  (i0 <= n)%N -> (0 < w)%N -> shape n n c -> nonneg rn ->
  exact_part (n - i0) rn w -> at_least_announced rank rn ->
  small_rank rank rn = Ok s -> (\rank (mx n n c) <= s)%N ->
  forall k, (k * w <= n - i0)%N ->
  (\rank (diagonal_part (block_start i0 w) k.+1 c (block_start i0 w k.+1)) <= rank)%N.
Proof. exact: Steps_main.budget_main. Qed.
Print Assumptions block_rank_budget.

(** C72.  From the random draws to the errors, for a ratio that divides the rest exactly: all
    the errors are zero, for the incremental update if the first block has at least the size
    of the rank. *)
Theorem generated_block_exact :
  forall (R : realFieldType) (qr : mat R -> res (mat R * mat R)) (rsvd : mat R -> nat -> res (mat R * list R * mat R))
         (sqrt : R -> R) (eps : R),
  qr_ok qr -> truncated_ok rsvd -> lossless rsvd -> sqrt_ok sqrt -> 0 < eps ->
  forall draw drawv, (forall k i j, shape i j (draw k i j)) -> (forall k, size (drawv k) = k) ->
  forall n rank rf rn i0 w s,
  (s <= n)%N -> fraction rf -> nonneg rn -> part_of n rf i0 -> exact_part (n - i0) rn w -> (0 < i0)%N -> (0 < w)%N ->
  at_least_announced rank rn -> small_rank rank rn = Ok s ->
  match get_dynamics_mtx 0 +%R *%R (fun x y => x - y) (fun x y => x / y) (fun k => k%:R) qr sqrt eps
          (get_svd_triple rsvd) draw drawv n rank rf rn with
  | Err e => (exists x, qr x = Err e) \/ exists x r, rsvd x r = Err e
  | Ok recs => forall x, List.In x recs -> x.1 = Some 0
  end.
Proof. exact: Steps_full.full_block. Qed.
Print Assumptions generated_block_exact.

Theorem generated_block_incremental_exact :
  forall (R : realFieldType) (qr : mat R -> res (mat R * mat R)) (rsvd : mat R -> nat -> res (mat R * list R * mat R))
         (sqrt : R -> R) (eps : R),
  qr_ok qr -> truncated_ok rsvd -> lossless rsvd -> sqrt_ok sqrt -> 0 < eps ->
  forall draw drawv, (forall k i j, shape i j (draw k i j)) -> (forall k, size (drawv k) = k) ->
  forall svd argsort, svd_ok svd -> nonneg_svd svd -> argsort_ok (fun x y => x <= y) argsort -> nonneg_rsvd rsvd ->
  forall n rank rf rn i0 w s,
  (s <= n)%N -> fraction rf -> nonneg rn -> part_of n rf i0 -> exact_part (n - i0) rn w -> (0 < i0)%N -> (0 < w)%N ->
  at_least_announced rank rn -> small_rank rank rn = Ok s ->
  (rank <= i0)%N ->
  match get_dynamics_mtx 0 +%R *%R (fun x y => x - y) (fun x y => x / y) (fun k => k%:R) qr sqrt eps
          (get_incremental_svd_triple_block 0 +%R *%R svd rsvd argsort) draw drawv n rank rf rn with
  | Err e => (exists x, qr x = Err e) \/ (exists x, svd x = Err e) \/ exists x r, rsvd x r = Err e
  | Ok recs => forall x, List.In x recs -> x.1 = Some 0
  end.
Proof.
  move=> R qr rsvd sqrt eps QR TR LL SQ EP draw drawv D1 D2 svd argsort S1 S2 S3 S4 n rank rf rn i0 w s H1 H2 H3 H4 H5 H6 H7 H8 H9 H10.
  exact: (Steps_full.full_block_incremental QR TR LL SQ EP D1 D2 S1 S2 S3 S4 H1 H2 H3 H4 H5 H7 H8 H9 H6 H10).
Qed.
Print Assumptions generated_block_incremental_exact.

(** C72.  When the width is rounded there can be more blocks than announced, and the last
    target does not fit in the rank. *)
Theorem block_rank_budget_refuted :
  exists n (c : mat rat) rank rf rn i0 w s,
  [/\ shape n n c, fraction rf, nonneg rn, part_of n rf i0 & part_of (n - i0) rn w] /\
  [/\ (0 < i0)%N, (0 < w)%N, at_least_announced rank rn, small_rank rank rn = Ok s & (\rank (mx n n c) <= s)%N] /\
  exists k, (k * w <= n - i0)%N /\
  (rank < \rank (diagonal_part (block_start i0 w) k.+1 c (block_start i0 w k.+1)))%N.
Proof. exact: Steps_wit.budget_broken. Qed.
Print Assumptions block_rank_budget_refuted.

(** C73.  Following a list of matrices: the errors recorded are those of approximations
    within the rank; the first is exact iff it can be; at every step the error matrix moves by
    at most the change of the data, and exactness is kept when each matrix is seen in full
    from the rows of the one before. *)
Theorem psi_dynamics_errors :
  forall (R : realFieldType) (qr : mat R -> res (mat R * mat R)) (rsvd : mat R -> nat -> res (mat R * list R * mat R))
         (sqrt : R -> R) (eps : R),
  qr_ok qr -> truncated_ok rsvd -> lossless rsvd ->
  forall m n a l rank, (0 < m * n)%N -> List.Forall (shape m n) (a :: l) ->
  match get_psi_dynamics 0 +%R *%R (fun x y => x - y) (fun x y => x / y) (fun k => k%:R) qr rsvd sqrt eps (a :: l) rank with
  | Err e => (exists x, qr x = Err e) \/ (exists x r, rsvd x r = Err e)
  | Ok [::] => False
  | Ok (e :: es) => exists Y : 'M[R]_(m, n), [/\ e = Some (relative_error sqrt eps Y (mx m n a)),
      (\rank Y <= rank)%N, (\rank (mx m n a) <= rank)%N -> Y = mx m n a
    & followed sqrt eps rank (mx m n a) Y l es]
  end.
Proof. exact: Steps_psi.psi_dynamics_main. Qed.
Print Assumptions psi_dynamics_errors.

(** C73.  So all the errors are zero when the first matrix fits in the rank and each matrix
    is seen in full from the one before; an empty list raises UnboundLocalError. *)
Theorem psi_dynamics_exact :
  forall (R : realFieldType) (qr : mat R -> res (mat R * mat R)) (rsvd : mat R -> nat -> res (mat R * list R * mat R))
         (sqrt : R -> R) (eps : R),
  qr_ok qr -> truncated_ok rsvd -> lossless rsvd -> sqrt_ok sqrt -> 0 < eps ->
  forall rank,
  let psi l := get_psi_dynamics 0 +%R *%R (fun x y => x - y) (fun x y => x / y) (fun k => k%:R) qr rsvd sqrt eps l rank in
  psi [::] = Err UnboundLocalError /\
  forall m n a l es, (0 < m * n)%N -> List.Forall (shape m n) (a :: l) -> psi (a :: l) = Ok es ->
  size es = (size l).+1 /\
  (forall k, List.nth_error es k = Some (Some 0) ->
     exists2 b, List.nth_error (a :: l) k = Some b & (\rank (mx m n b) <= rank)%N) /\
  ((\rank (mx m n a) <= rank)%N -> overlap (mx m n a) l -> es = nseq (size l).+1 (Some 0)).
Proof. exact: Steps_psi.psi_exact_main. Qed.
Print Assumptions psi_dynamics_exact.

(** C73.  Fitting in the rank is not enough. *)
Theorem psi_dynamics_exact_refuted :
  exists (qr : mat rat -> res (mat rat * mat rat)) rsvd sqrt eps a b e,
  [/\ qr_ok qr, truncated_ok rsvd, lossless rsvd, sqrt_ok sqrt & 0 < eps] /\
  [/\ shape 2 2 a, shape 2 2 b, (\rank (mx 2 2 a) <= 1)%N & (\rank (mx 2 2 b) <= 1)%N] /\
  get_psi_dynamics 0 +%R *%R (fun x y => x - y) (fun x y => x / y) (fun k => k%:R) qr rsvd sqrt eps [:: a; b] 1
  = Ok [:: Some 0; Some e] /\ e <> 0.
Proof. exact: Steps_wit.psi_broken. Qed.
Print Assumptions psi_dynamics_exact_refuted.

(** C73.  A fresh SVD of every matrix of the list is exact exactly where it fits. *)
Theorem svd_dynamics_errors :
  forall (R : realFieldType) (rsvd : mat R -> nat -> res (mat R * list R * mat R)) (sqrt : R -> R) (eps : R),
  truncated_ok rsvd -> lossless rsvd -> sqrt_ok sqrt -> 0 < eps ->
  forall m n l rank, (0 < m * n)%N -> List.Forall (shape m n) l -> l <> [::] ->
  match get_svd_dynamics 0 +%R *%R (fun x y => x - y) (fun x y => x / y) (fun k => k%:R) rsvd sqrt eps l rank with
  | Err e => exists x r, rsvd x r = Err e
  | Ok es => List.Forall2 (fun a e => exists2 x, e = Some x & 0 <= x /\ (x = 0 <-> (\rank (mx m n a) <= rank)%N)) l es
  end.
Proof. exact: Steps_psi.svd_dynamics_main. Qed.
Print Assumptions svd_dynamics_errors.

(** C74.  The matrices set up by the numerical experiment: sizes, skew-symmetry, and the rank
    of every mixture when the noise is switched off. *)
Theorem numerical_setup :
  forall (R : realFieldType) (half small large : R) rand_block rand_full rand_skew n b,
  (b <= n)%N -> (forall k, shape n n (rand_skew k)) ->
  exists a1 a2 t1 t2,
  numerical_experiment 0 1 +%R *%R (fun x y => x - y) half small large rand_block rand_full rand_skew n b = Ok (a1, a2, t1, t2) /\
  [/\ [/\ shape n n a1, shape n n a2, shape n n t1 & shape n n t2],
      (mx n n t1)^T = - mx n n t1, (mx n n t2)^T = - mx n n t2
    & small = 0 -> forall x, (\rank (mixed n a1 a2 x) <= b)%N].
Proof. exact: Steps_num.experiment_main. Qed.
Print Assumptions numerical_setup.

(** C74.  The k-th matrix of the dynamics is the mixture at time t0 + k h between k Euler
    steps on each side; with skew-symmetric generators this keeps the rank and never lowers
    the norm. *)
Theorem dynamics_list_value :
  forall (R : realFieldType) (exp : R -> R) n a1 a2 t1 t2 t0 h steps,
  shape n n a1 -> shape n n a2 -> shape n n t1 -> shape n n t2 ->
  exists2 l, get_dynamics_list 0 1 +%R *%R exp a1 a2 t1 t2 t0 h n steps = Ok l & size l = steps /\
    forall k a, List.nth_error l k = Some a ->
    let M := mixed n a1 a2 (exp (t0 + k%:R * h)) in
    [/\ shape n n a, mx n n a = euler h (mx n n t1) k *m M *m (euler h (mx n n t2) k)^T
      & (mx n n t1)^T = - mx n n t1 -> (mx n n t2)^T = - mx n n t2 ->
        \rank (mx n n a) = \rank M /\ normsq M <= normsq (mx n n a)].
Proof. exact: Steps_num.dynamics_main. Qed.
Print Assumptions dynamics_list_value.

(** C74.  The Euler steps are not rotations: the norm can grow. *)
Theorem dynamics_norm_refuted :
  exists (a1 a2 t1 t2 : mat rat),
  [/\ shape 2 2 a1, shape 2 2 a2, shape 2 2 t1 & shape 2 2 t2] /\
  [/\ (mx 2 2 t1)^T = - mx 2 2 t1, (mx 2 2 t2)^T = - mx 2 2 t2
    & forall exp t0, exists l a, [/\ get_dynamics_list 0 1 +%R *%R exp a1 a2 t1 t2 t0 1 2 2 = Ok l,
        List.nth_error l 1 = Some a & normsq (mixed 2 a1 a2 (exp (t0 + 1))) < normsq (mx 2 2 a)]].
Proof. exact: Steps_wit.norm_grows. Qed.
Print Assumptions dynamics_norm_refuted.

(** C74.  The comparison: the plotted times are those of the matrices; the SVD error vanishes
    exactly when the mixture of that time fits in the rank, the PSI error only if it does, and
    both start equal to zero together; no steps raise UnboundLocalError. *)
Theorem compare_approximations_errors :
  forall (R : realFieldType) (qr : mat R -> res (mat R * mat R)) (rsvd : mat R -> nat -> res (mat R * list R * mat R))
         (sqrt : R -> R) (eps : R) (exp : R -> R),
  qr_ok qr -> truncated_ok rsvd -> lossless rsvd -> sqrt_ok sqrt -> 0 < eps ->
  forall a1 a2 t1 t2 t0 h n rank,
  let compare N := compare_approximations 0 1 +%R *%R (fun x y => x - y) (fun x y => x / y) (fun k => k%:R)
                     qr rsvd sqrt eps exp a1 a2 t1 t2 t0 h n N rank in
  compare 0%N = Err UnboundLocalError /\
  forall N, shape n n a1 -> shape n n a2 -> shape n n t1 -> shape n n t2 ->
  (mx n n t1)^T = - mx n n t1 -> (mx n n t2)^T = - mx n n t2 -> (0 < n)%N -> (0 < N)%N ->
  match compare N with
  | Err e => (exists x, qr x = Err e) \/ (exists x r, rsvd x r = Err e)
  | Ok (xs, es, ep) => [/\ size xs = N, size es = N, size ep = N
    & forall k x, List.nth_error xs k = Some x -> let r := \rank (mixed n a1 a2 (exp x)) in
       [/\ x = t0 + k%:R * h,
           exists2 e, List.nth_error es k = Some (Some e) & 0 <= e /\ (e = 0 <-> (r <= rank)%N),
           List.nth_error ep k = Some (Some 0) -> (r <= rank)%N
         & k = 0%N -> (r <= rank)%N -> List.nth_error ep k = Some (Some 0)]]
  end.
Proof. exact: Steps_num.compare_final. Qed.
Print Assumptions compare_approximations_errors.

(** Concrete cases.  The matrix 25 u u^T, u = (3/5, 4/5), in two columns or rows, rank 1:
    both experiments record zero errors. *)
Example vec_contracts : [/\ qr_ok Steps_wit.v_qr, truncated_ok Steps_wit.v_rsvd & lossless Steps_wit.v_rsvd]
  /\ sqrt_ok (fun x : rat => x) /\ 0 < Steps_wit.w_half.
Proof. split; [exact: Steps_wit.v_contracts|split; [exact: Steps_wit.id_sqrt|exact: Steps_wit.w_half_pos]]. Qed.
Example vec_run_fresh :
  Steps_wit.ok_is (dynamics_vec 0 +%R *%R (fun x y => x - y) (fun x y => x / y) (fun k => k%:R) (fun x => x) Steps_wit.w_half
    (get_svd_triple Steps_wit.v_rsvd) Rows Steps_wit.v_c 1 (1 # 2) 1)
    [:: (Some 0, (1, 2)%N); (Some 0, (2, 2)%N)].
Proof. by vm_compute. Qed.
Example vec_run_cols :
  Steps_wit.ok_is (dynamics_vec 0 +%R *%R (fun x y => x - y) (fun x y => x / y) (fun k => k%:R) (fun x => x) Steps_wit.w_half
    (get_incremental_svd_triple 0 1 +%R *%R (fun x y => x - y) Steps_wit.v_qr Steps_wit.v_rsvd (fun x => 0 < x) Cols)
    Cols Steps_wit.v_c 1 (1 # 2) 1)
    [:: (Some 0, (2, 1)%N); (Some 0, (2, 2)%N)].
Proof. by vm_compute. Qed.
Example vec_run_rows :
  Steps_wit.ok_is (dynamics_vec 0 +%R *%R (fun x y => x - y) (fun x y => x / y) (fun k => k%:R) (fun x => x) Steps_wit.w_half
    (get_incremental_svd_triple 0 1 +%R *%R (fun x y => x - y) Steps_wit.v_qr Steps_wit.v_rsvd (fun x => 0 < x) Rows)
    Rows Steps_wit.v_c 1 (1 # 2) 1)
    [:: (Some 0, (1, 2)%N); (Some 0, (2, 2)%N)].
Proof. by vm_compute. Qed.
Example vec_run_zero_width :
  dynamics_vec 0 +%R *%R (fun x y => x - y) (fun x y => x / y) (fun k => k%:R) (fun x => x) Steps_wit.w_half
    (get_svd_triple Steps_wit.v_rsvd) Rows Steps_wit.v_c 1 (1 # 2) (1 # 2) = Err ZeroDivisionError.
Proof. by vm_compute. Qed.
Example error_case :
  Steps_wit.ok_is (sqrt_err_relative_mtx 0 +%R *%R (fun x y => x - y) (fun x y => x / y) (fun k => k%:R) (fun x => x) Steps_wit.w_half
    Steps_wit.p_a0 Steps_wit.i_c) (Some (frac 1 4)).
Proof. by vm_compute. Qed.

(** The blocks 25 u u^T and 7, rank 2. *)
Example block_contracts : [/\ svd_ok LinAlg_wit.demo_svd, nonneg_svd LinAlg_wit.demo_svd, truncated_ok Steps_wit.b_rsvd,
    lossless Steps_wit.b_rsvd & nonneg_rsvd Steps_wit.b_rsvd] /\ argsort_ok (fun x y : rat => x <= y) rat_argsort.
Proof. split; [exact: Steps_wit.b_contracts|exact: rat_argsort_ok]. Qed.
Example block_run :
  let run f := dynamics_mtx 0 +%R *%R (fun x y => x - y) (fun x y => x / y) (fun k => k%:R) (fun x => x) Steps_wit.w_half
    f Steps_wit.b_c 2 (2 # 3) 1 in
  Steps_wit.ok_is (run (get_svd_triple Steps_wit.b_rsvd)) [:: (Some 0, (2, 2)%N); (Some 0, (3, 3)%N)] /\
  Steps_wit.ok_is (run (get_incremental_svd_triple_block 0 +%R *%R LinAlg_wit.demo_svd Steps_wit.b_rsvd rat_argsort))
    [:: (Some 0, (2, 2)%N); (Some 0, (3, 3)%N)].
Proof. by split; vm_compute. Qed.
(** Ratio 1/2 of four positions, rank 6: three blocks of rank at most 2. *)
Example budget_case : exact_part (5 - 1) (1 # 2) 2 /\ at_least_announced 6 (1 # 2) /\ small_rank 6 (1 # 2) = Ok 2%N.
Proof. by do !split; vm_compute. Qed.

(** 25 u u^T, then twice that: every error is zero. *)
Example psi_overlap : (\rank (mx 2 2 Steps_wit.v_c) <= 1)%N /\ overlap (mx 2 2 Steps_wit.v_c) [:: Steps_wit.v_c2].
Proof. exact: Steps_wit.v_overlap. Qed.
Example psi_run :
  Steps_wit.ok_is (get_psi_dynamics 0 +%R *%R (fun x y => x - y) (fun x y => x / y) (fun k => k%:R) Steps_wit.v_qr Steps_wit.v_rsvd
    (fun x => x) Steps_wit.w_half [:: Steps_wit.v_c; Steps_wit.v_c2] 1) [:: Some 0; Some 0].
Proof. by vm_compute. Qed.
Example svd_run :
  Steps_wit.ok_is (get_svd_dynamics 0 +%R *%R (fun x y => x - y) (fun x y => x / y) (fun k => k%:R) Steps_wit.p_rsvd
    (fun x => x) Steps_wit.w_half [:: Steps_wit.p_a0; Steps_wit.p_a1] 1) [:: Some 0; Some 0].
Proof. by vm_compute. Qed.

(** A skew-symmetric matrix and one step of the numerical experiment. *)
Example skew_case : match skew_symmetric 0 *%R (fun x y => x - y) (frac 1 2) (mkMat 2 2 [:: 5%:Q; 1; 0; 7%:Q]) with
  | Ok t => same t Steps_wit.e_skew | Err _ => false end.
Proof. by vm_compute. Qed.
Example setup_case :
  match numerical_experiment 0 1 +%R *%R (fun x y => x - y) (frac 1 2) 0 (frac 1 2) (fun _ => mkMat 1 1 [:: 1])
          (fun _ => Steps_wit.i_c) (fun _ => Steps_wit.i_c) 2 1 with
  | Ok (a1, a2, t1, t2) => [&& same a1 (mkMat 2 2 [:: frac 3 2; 0; 0; 0]), same a2 a1, same t1 Steps_wit.e_zero & same t2 t1]
  | Err _ => false end.
Proof. by vm_compute. Qed.
Example compare_case :
  match compare_approximations 0 1 +%R *%R (fun x y => x - y) (fun x y => x / y) (fun k => k%:R) Steps_wit.p_qr Steps_wit.p_rsvd
          (fun x => x) Steps_wit.w_half (fun _ => 1) Steps_wit.p_a0 Steps_wit.e_zero Steps_wit.e_zero Steps_wit.e_zero 3%:Q 2%:Q 2 1 1 with
  | Ok (xs, es, ep) => [&& xs == [:: 3%:Q], es == [:: Some 0] & ep == [:: Some 0]]
  | Err _ => false end.
Proof. by vm_compute. Qed.
Example compare_empty :
  compare_approximations 0 1 +%R *%R (fun x y => x - y) (fun x y => x / y) (fun k => k%:R) Steps_wit.p_qr Steps_wit.p_rsvd
    (fun x => x) Steps_wit.w_half (fun _ => 1) Steps_wit.p_a0 Steps_wit.e_zero Steps_wit.e_zero Steps_wit.e_zero 3%:Q 2%:Q 2 0 1
  = Err UnboundLocalError.
Proof. by vm_compute. Qed.

(** Runs from the draws. *)
Example generated_contracts : [/\ qr_ok Steps_wit.g_qr, truncated_ok Steps_wit.g_rsvd, lossless Steps_wit.g_rsvd & nonneg_rsvd Steps_wit.g_rsvd]
  /\ svd_ok Steps_wit.g_svd /\ nonneg_svd Steps_wit.g_svd.
Proof. exact: Steps_wit.g_contracts. Qed.
Example generated_shaped : (forall k i j, shape i j (Steps_wit.g_draw k i j)) /\ (forall k, size (Steps_wit.g_drawv k) = k).
Proof. exact: Steps_wit.g_shaped. Qed.
Example generated_vec_run :
  let run f := get_dynamics_vec 0 +%R *%R (fun x y => x - y) (fun x y => x / y) (fun k => k%:R) Steps_wit.v_qr (fun x => x) Steps_wit.w_half
    f Steps_wit.g_draw Steps_wit.g_drawv 2 1 (1 # 2) 1 Cols in
  Steps_wit.ok_is (run (get_svd_triple Steps_wit.v_rsvd)) [:: (Some 0, (2, 1)%N); (Some 0, (2, 2)%N)] /\
  Steps_wit.ok_is (run (get_incremental_svd_triple 0 1 +%R *%R (fun x y => x - y) Steps_wit.v_qr Steps_wit.v_rsvd (fun x => 0 < x) Cols))
    [:: (Some 0, (2, 1)%N); (Some 0, (2, 2)%N)].
Proof. by split; vm_compute. Qed.
Example generated_block_run :
  let run f := get_dynamics_mtx 0 +%R *%R (fun x y => x - y) (fun x y => x / y) (fun k => k%:R) Steps_wit.g_qr (fun x => x) Steps_wit.w_half
    f Steps_wit.g_draw Steps_wit.g_drawv 3 2 (2 # 3) 1 in
  Steps_wit.ok_is (run (get_svd_triple Steps_wit.g_rsvd)) [:: (Some 0, (2, 2)%N); (Some 0, (3, 3)%N)] /\
  Steps_wit.ok_is (run (get_incremental_svd_triple_block 0 +%R *%R Steps_wit.g_svd Steps_wit.g_rsvd rat_argsort))
    [:: (Some 0, (2, 2)%N); (Some 0, (3, 3)%N)] /\
  exact_part (3 - 2) 1 1 /\ at_least_announced 2 1 /\ small_rank 2 1 = Ok 1%N.
Proof. by do !split; vm_compute. Qed.
