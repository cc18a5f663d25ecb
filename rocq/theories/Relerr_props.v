(** C100: what the relative error of a decomposition sees. *)
From Verif Require Import Prelude Tensor_model Tensor_spec Matrix_model Matrix_spec Hooi_model Relerr_model.
Set Warnings "-notation-overridden".
From mathcomp Require Import all_ssreflect all_algebra.
From Verif Require Import LinAlg_spec Tucker_spec Hooi_spec Relerr_spec Relerr_main Hooi_wit LinAlg_tables.
Set Implicit Arguments.
Unset Strict Implicit.
Unset Printing Implicit Defensive.
Import GRing.Theory Num.Theory.
Local Open Scope ring_scope.

(** C100: sqrt_err_relative of a Tucker decomposition compares the listed entries, one by one,
    and is 0 exactly when all of them are reproduced. *)
Theorem tensor_error_sees_listed_entries :
  forall (R : realFieldType) (sqrt : R -> R) (eps : R), root_ok sqrt -> 0 < eps ->
  forall (inds : list cell) (vals : list R) (u v w : mat R) (core : ten R),
  ((exists e, tensor_error sqrt eps inds vals u v w core = Ok e)
   <-> ((length inds <= length vals)%coq_nat /\ List.Forall (in_range (mr u, mr v, mr w)) inds /\ (core_fits core u v w \/ inds = nil)))
  /\ forall e, tensor_error sqrt eps inds vals u v w core = Ok e ->
     [/\ e = sqrt (\sum_(x <- List.combine inds vals) (x.2 - rep u v w core x.1) ^+ 2) / sqrt (squares vals + eps), 0 <= e
       & e = 0 <-> forall x, List.In x (List.combine inds vals) -> rep u v w core x.1 = x.2].
Proof. exact: error_main. Qed.
Print Assumptions tensor_error_sees_listed_entries.

(** C100: the same for sqrt_err_relative of a singular value decomposition, with the singular
    values in a vector or in a diagonal matrix. *)
Theorem matrix_error_sees_listed_entries :
  forall (R : realFieldType) (sqrt : R -> R) (eps : R), root_ok sqrt -> 0 < eps ->
  forall (inds : list (nat * nat)) (vals : list R) (u : mat R) (s : list R) (vt : mat R),
  (forall e, matrix_error_1 sqrt eps inds vals u s vt = Ok e ->
     [/\ e = sqrt (\sum_(x <- List.combine inds vals) (x.2 - svd_cell u s vt x.1) ^+ 2) / sqrt (squares vals + eps), 0 <= e
       & e = 0 <-> forall x, List.In x (List.combine inds vals) -> svd_cell u s vt x.1 = x.2])
  /\ (forall d, is_diag 0 d s -> length s = mc u -> mc u = mr vt ->
       matrix_error_2 sqrt eps inds vals u d vt = matrix_error_1 sqrt eps inds vals u s vt).
Proof. exact: matrix_main. Qed.
Print Assumptions matrix_error_sees_listed_entries.

(** C100: for distinct entries the error is at most the error over all cells, and equal to it
    exactly when the decomposition vanishes at every cell that is not listed; in particular
    when all cells are listed. *)
Theorem listed_error_below_full_error :
  forall (R : realFieldType) (sqrt : R -> R) (eps : R), root_ok sqrt -> 0 < eps ->
  forall n0 n1 n2 (inds : list cell) (vals : list R),
  length vals = length inds -> List.NoDup inds -> List.Forall (in_range (n0, n1, n2)) inds ->
  forall (u v w : mat R) (core : ten R) e, (mr u, mr v, mr w) = (n0, n1, n2) ->
  tensor_error sqrt eps inds vals u v w core = Ok e ->
  let full := full_error sqrt eps n0 n1 n2 (dense (List.combine inds vals)) (rep u v w core) in
  [/\ e <= full, e = full <-> (forall c, in_range (n0, n1, n2) c -> ~ List.In c inds -> rep u v w core c = 0)
    & (forall c, in_range (n0, n1, n2) c -> List.In c inds) -> e = full].
Proof. exact: sparse_full_main. Qed.
Print Assumptions listed_error_below_full_error.

(** C100: "an error of 0 means that the decomposition is close to the tensor" is false: the
    error over all cells can be any number. *)
Theorem error_zero_is_exact_refuted :
  forall (R : realFieldType) (sqrt : R -> R) (eps : R), root_ok sqrt -> 0 < eps ->
  forall M : R, exists inds vals u v w core,
  [/\ hooi_args 2 1 1 1 1 1 inds vals /\ List.NoDup inds,
      tensor_error sqrt eps inds vals u v w core = Ok 0
    & full_error sqrt eps 2 1 1 (dense (List.combine inds vals)) (rep u v w core) = sqrt (M ^+ 2) / sqrt (1 + eps)].
Proof. exact: blind_main. Qed.
Print Assumptions error_zero_is_exact_refuted.

(** C100: "a decomposition of the tensor without loss has error 0" is false when a coordinate
    is listed twice: the decompositions add the values up, the error compares each. *)
Theorem exact_has_error_zero_refuted :
  forall (R : realFieldType) (sqrt : R -> R) (eps : R), root_ok sqrt -> 0 < eps ->
  exists inds vals u v w core e,
  [/\ hooi_args 1 1 1 1 1 1 inds vals,
      forall c, in_range (1, 1, 1)%N c -> rep u v w core c = dense (List.combine inds vals) c,
      tensor_error sqrt eps inds vals u v w core = Ok e & e <> 0].
Proof. exact: repeated_main. Qed.
Print Assumptions exact_has_error_zero_refuted.

(** C100: the error of rp_hooi is computable, below 1, and at most what the norm of the core
    leaves; exactly that if all cells are listed, so it is 0 when the core has the norm of the
    data. *)
Theorem rp_hooi_error_from_core :
  forall (R : realFieldType) (sqrt : R -> R) (eps : R), root_ok sqrt -> 0 < eps ->
  forall (qr : mat R -> res (mat R * mat R)) rand (rsvd : nat -> mat R -> nat -> res (mat R * list R * mat R)),
  qr_ok qr -> (forall m, randn_ok (rand m)) -> inner_ok rsvd ->
  forall (N : Type) (norm : ten R -> N) norm0 grew n0 r0 n1 r1 n2 r2 inds (vals : list R) n_iter fs core,
  hooi_args n0 r0 n1 r1 n2 r2 inds vals -> List.NoDup inds ->
  rp_hooi (0 : R) +%R *%R qr rand rsvd norm norm0 grew inds vals (n0, n1, n2) (r0, r1, r2) n_iter = Ok (fs, core) ->
  (0 < n_iter)%N ->
  exists g e, [/\ core = Some g,
    tensor_error sqrt eps inds vals (factor fs 0) (factor fs 1) (factor fs 2) g = Ok e,
    0 <= e < 1,
    e <= sqrt (squares vals - sumsq r0 r1 r2 (tget 0 g)) / sqrt (squares vals + eps)
    & (forall c, in_range (n0, n1, n2) c -> List.In c inds) ->
      e = sqrt (squares vals - sumsq r0 r1 r2 (tget 0 g)) / sqrt (squares vals + eps)
      /\ (e = 0 <-> sumsq r0 r1 r2 (tget 0 g) = squares vals)].
Proof. exact: rp_error_main. Qed.
Print Assumptions rp_hooi_error_from_core.

(** C100: the Hilbert tensor lists every cell once, with 1 / (i + j + k + 1) at (i, j, k), so
    its error is the error over all cells. *)
Theorem hilbert_tensor_is_full :
  forall (R : realFieldType) (sqrt : R -> R) (eps : R) n0 n1 n2 (inds : list cell) (vals : list R),
  root_ok sqrt -> 0 < eps -> hilbert (n0, n1, n2) = (inds, vals) ->
  let h (c : cell) := 1 / (c0 c + c1 c + c2 c + 1)%:R : R in
  [/\ length vals = length inds, List.NoDup inds, forall c, List.In c inds <-> in_range (n0, n1, n2) c,
      forall c, in_range (n0, n1, n2) c -> dense (List.combine inds vals) c = h c
    & forall u v w core e, (mr u, mr v, mr w) = (n0, n1, n2) -> tensor_error sqrt eps inds vals u v w core = Ok e ->
      e = full_error sqrt eps n0 n1 n2 h (rep u v w core)].
Proof. exact: hilbert_main. Qed.
Print Assumptions hilbert_tensor_is_full.

(** Cases, over the rationals with a monotone function for the root: rp_hooi on three
    entries of a 2 x 2 x 2 tensor (the full error is 256 / 426); the Hilbert tensor of shape 1 x 2 x 2. *)
Example root_demo : root_ok (fun x : rat => x).
Proof. by split. Qed.
Example rp_hooi_error_demo :
  hooi_args 2 1 2 1 2 1 Hooi_wit.p_inds Hooi_wit.p_vals /\ List.NoDup Hooi_wit.p_inds /\
  match rp_hooi 0 +%R *%R Hooi_wit.h_qr Hooi_wit.h_rand Hooi_wit.h_rsvd Hooi_wit.h_norm 0 Hooi_wit.h_grew
          Hooi_wit.p_inds Hooi_wit.p_vals (2, 2, 2)%N (1, 1, 1)%N 1 with
  | Ok ((f0, f1, f2), Some g) =>
    if tensor_error (fun x : rat => x) 1 Hooi_wit.p_inds Hooi_wit.p_vals f0 f1 f2 g is Ok e
    then (tdat g, e) == ([:: 13%:Q], LinAlg_tables.frac 2048 5325) else false
  | _ => false
  end.
Proof. split; [exact: Relerr_main.p_args222|split; [exact: Relerr_main.p_nodup|]]. by vm_compute. Qed.
Example hilbert_demo :
  hilbert (1, 2, 2)%N = ([:: (0, 0, 0); (0, 0, 1); (0, 1, 0); (0, 1, 1)]%N, [:: 1; LinAlg_tables.frac 1 2; LinAlg_tables.frac 1 2; LinAlg_tables.frac 1 3]).
Proof. apply/eqP. by vm_compute. Qed.
