(** Property theorems for source/rp_hooi.py (rp_hooi, ga_satf, tucker2) and source/hosvd.py
    (hosvd, hosvd_dense, tucker2_dense): C44, C56, C57, C58. *)
From Verif Require Import Prelude Tensor_model Tensor_spec Matrix_model Attention_model LinAlg_model Hooi_model.
Set Warnings "-notation-overridden".
From mathcomp Require Import all_ssreflect all_algebra.
From Verif Require Import LinAlg_spec LinAlg_tables Tucker_spec Hooi_spec.
From Verif Require Hooi_ident Hooi_run Hooi_ascent Hooi_final Hosvd_main Tucker2_main Hooi_wit.
Set Implicit Arguments.
Unset Strict Implicit.
Unset Printing Implicit Defensive.
Import GRing.Theory Num.Theory.
Local Open Scope ring_scope.

(** C44.  With the identity attention, no callback and no initial factors, ga_satf returns
    what rp_hooi returns (also when it raises), whatever QR, random numbers, the inner SVD,
    the norm and the growth test do, for every data, shape, rank and number of sweeps. *)
Theorem ga_satf_identity_is_rp_hooi :
  forall (R : comRingType) (qr : mat R -> res (mat R * mat R)) rand
    (rsvd : nat -> mat R -> nat -> res (mat R * list R * mat R)),
  (forall x q r, qr x = Ok (q, r) -> mr q = mr x) -> (forall m n r, mr (rand m n r) = n) ->
  (forall t x r u s vt, rsvd t x r = Ok (u, s, vt) -> mr u = mr x) ->
  forall (N C : Type) (norm : ten R -> N) norm0 grew inds vals n0 n1 n2 rank n_iter (st : C),
  ga_satf 0 +%R *%R qr rand rsvd norm norm0 grew inds vals (n0, n1, n2) rank (eye 0 1 n2) n_iter None None false st
  = (do r <- rp_hooi 0 +%R *%R qr rand rsvd norm norm0 grew inds vals (n0, n1, n2) rank n_iter; Ok (r, st)).
Proof. exact: Hooi_final.ga_identity_full. Qed.
Print Assumptions ga_satf_identity_is_rp_hooi.

(** C44.  What ga_satf computes on well-formed arguments: it raises only what QR, the inner
    SVD or the callback raise; otherwise the result is that of a run of at most [n_iter]
    sweeps (at least one if n_iter > 0), each mode being updated from the others, stopping
    after the first sweep whose test fails; the returned core is that of the returned
    factors. *)
Theorem ga_satf_run :
  forall (R : comRingType) (qr : mat R -> res (mat R * mat R)) rand
    (rsvd : nat -> mat R -> nat -> res (mat R * list R * mat R)),
  qr_ok qr -> (forall m, randn_ok (rand m)) -> inner_ok rsvd ->
  forall (N C : Type) (norm : ten R -> N) norm0 grew n0 r0 n1 r1 n2 r2 inds vals att n_iter
    (cb : option (@callback R C)) init force st,
  hooi_args n0 r0 n1 r1 n2 r2 inds vals -> shape n2 n2 att ->
  (if init is Some xs then [/\ (mr (factor xs 0) <= n0)%N /\ mc (factor xs 0) = r0,
                               (mr (factor xs 1) <= n1)%N /\ mc (factor xs 1) = r1
                             & (mr (factor xs 2) <= n2)%N /\ mc (factor xs 2) = r2] else True) ->
  match ga_satf (0 : R) +%R *%R qr rand rsvd norm norm0 grew inds vals (n0, n1, n2) (r0, r1, r2) att n_iter cb init force st with
  | Err e => (exists x, qr x = Err e) \/ (exists t x r, rsvd t x r = Err e)
             \/ (exists c s f g, [/\ force = false, cb = Some c & c s f g = Err e])
  | Ok (fs, core, st') => exists k F G S,
     [/\ start qr rand n0 r0 n1 r1 n2 r2 init (F 0%N), S 0%N = st,
         run norm norm0 grew cb force
           (sweep n0 r0 n1 r1 r2 (dense (List.combine inds vals)) (mx n2 n2 att) rsvd) n_iter k F G S
       & [/\ fs = F k, core = (if k is 0 then None else Some (G k)), st' = S k
         & (0 < k)%N -> [/\ shape n0 r0 (factor fs 0), shape n1 r1 (factor fs 1), shape n2 r2 (factor fs 2)
             & [/\ orthonormal n0 r0 (factor fs 0), orthonormal n1 r1 (factor fs 1) & orthonormal n2 r2 (factor fs 2)]]]]
  end.
Proof. exact: Hooi_run.ga_run_main. Qed.
Print Assumptions ga_satf_run.

(** C44.  The same for rp_hooi: no attention, no callback. *)
Theorem rp_hooi_run :
  forall (R : comRingType) (qr : mat R -> res (mat R * mat R)) rand rsvd,
  qr_ok qr -> (forall m, randn_ok (rand m)) -> inner_ok rsvd ->
  forall (N : Type) (norm : ten R -> N) norm0 grew n0 r0 n1 r1 n2 r2 inds vals n_iter,
  hooi_args n0 r0 n1 r1 n2 r2 inds vals ->
  match rp_hooi (0 : R) +%R *%R qr rand rsvd norm norm0 grew inds vals (n0, n1, n2) (r0, r1, r2) n_iter with
  | Err e => (exists x, qr x = Err e) \/ (exists t x r, rsvd t x r = Err e)
  | Ok (fs, core) => exists k F G (S : nat -> unit),
     [/\ start qr rand n0 r0 n1 r1 n2 r2 None (F 0%N),
         run norm norm0 grew None false
           (sweep n0 r0 n1 r1 r2 (dense (List.combine inds vals)) (1%:M : 'M_n2) rsvd) n_iter k F G S
       & [/\ fs = F k, core = (if k is 0 then None else Some (G k))
         & (0 < k)%N -> [/\ shape n0 r0 (factor fs 0), shape n1 r1 (factor fs 1), shape n2 r2 (factor fs 2)
             & [/\ orthonormal n0 r0 (factor fs 0), orthonormal n1 r1 (factor fs 1) & orthonormal n2 r2 (factor fs 2)]]]]
  end.
Proof. exact: Hooi_run.rp_run_main. Qed.
Print Assumptions rp_hooi_run.

(** C44.  Input checks for positive sizes and ranks, one sweep or more and no initial
    factors: if ga_satf returns then the rank is valid, fits the shape and the attention
    matrix has the size of the third mode; an invalid rank raises RuntimeError, a misfit
    ValueError. *)
Theorem ga_satf_input_checks :
  forall (R : comRingType) (qr : mat R -> res (mat R * mat R)) rand
    (rsvd : nat -> mat R -> nat -> res (mat R * list R * mat R)),
  qr_ok qr -> (forall m, randn_ok (rand m)) -> inner_ok rsvd ->
  forall (N C : Type) (norm : ten R -> N) norm0 grew n0 r0 n1 r1 n2 r2 inds vals att n_iter
    (cb : option (@callback R C)) force st L,
  (0 < n0)%N -> (0 < n1)%N -> (0 < n2)%N -> (0 < r0)%N -> (0 < r1)%N -> (0 < r2)%N ->
  length vals = length inds -> List.Forall (in_range (n0, n1, n2)) inds -> shape L L att -> (0 < n_iter)%N ->
  let valid := [/\ (r0 <= r1 * r2)%N, (r1 <= r0 * r2)%N & (r2 <= r0 * r1)%N] in
  let fits := [/\ (r0 <= n0)%N, (r1 <= n1)%N, (r2 <= n2)%N & L = n2] in
  match ga_satf (0 : R) +%R *%R qr rand rsvd norm norm0 grew inds vals (n0, n1, n2) (r0, r1, r2) att n_iter cb None force st with
  | Ok _ => valid /\ fits
  | Err e => (exists x, qr x = Err e) \/ (exists t x r, rsvd t x r = Err e)
             \/ (exists c s f g, [/\ force = false, cb = Some c & c s f g = Err e])
             \/ (e = RuntimeError /\ ~ valid)
             \/ [/\ e = ValueError, valid & ~ fits]
  end.
Proof. exact: Hooi_final.ga_checks_main. Qed.
Print Assumptions ga_satf_input_checks.

(** The inner SVD assumed above is what random_svd delivers. *)
Theorem random_svd_is_inner :
  forall (R : comRingType) (qr : nat -> mat R -> res (mat R * mat R))
    (svd : nat -> mat R -> res (mat R * list R * mat R)) (randn : nat -> nat -> nat -> mat R) npow os,
  (forall t, qr_ok (qr t)) -> (forall t, svd_ok (svd t)) -> (forall t, randn_ok (randn t)) ->
  let f := fun t x r => random_svd (0 : R) +%R *%R (qr t) (svd t) (randn t) x r npow os in
  inner_ok f /\ right_ok f.
Proof. exact: Hooi_ascent.random_svd_inner_right_main. Qed.
Print Assumptions random_svd_is_inner.

(** C56.  After at least one sweep the factors and core of ga_satf represent the orthogonal
    projection of the attended data: projection formula, exactness if and only if every
    factor spans its unfolding, and squared norms adding up. *)
Theorem ga_satf_projects :
  forall (R : comRingType) (qr : mat R -> res (mat R * mat R)) rand
    (rsvd : nat -> mat R -> nat -> res (mat R * list R * mat R)),
  qr_ok qr -> (forall m, randn_ok (rand m)) -> inner_ok rsvd ->
  forall (N C : Type) (norm : ten R -> N) norm0 grew n0 r0 n1 r1 n2 r2 inds vals att n_iter
    (cb : option (@callback R C)) init force st fs core st',
  hooi_args n0 r0 n1 r1 n2 r2 inds vals -> shape n2 n2 att ->
  (if init is Some xs then [/\ (mr (factor xs 0) <= n0)%N /\ mc (factor xs 0) = r0,
                               (mr (factor xs 1) <= n1)%N /\ mc (factor xs 1) = r1
                             & (mr (factor xs 2) <= n2)%N /\ mc (factor xs 2) = r2] else True) ->
  ga_satf (0 : R) +%R *%R qr rand rsvd norm norm0 grew inds vals (n0, n1, n2) (r0, r1, r2) att n_iter cb init force st
    = Ok (fs, core, st') -> (0 < n_iter)%N ->
  exists2 g, core = Some g & projection n0 r0 n1 r1 n2 r2 (attended n2 att (dense (List.combine inds vals))) fs g.
Proof. exact: Hooi_final.ga_projects_main. Qed.
Print Assumptions ga_satf_projects.

(** C56.  The same for rp_hooi, for the data itself. *)
Theorem rp_hooi_projects :
  forall (R : comRingType) (qr : mat R -> res (mat R * mat R)) rand
    (rsvd : nat -> mat R -> nat -> res (mat R * list R * mat R)),
  qr_ok qr -> (forall m, randn_ok (rand m)) -> inner_ok rsvd ->
  forall (N : Type) (norm : ten R -> N) norm0 grew n0 r0 n1 r1 n2 r2 inds vals n_iter fs core,
  hooi_args n0 r0 n1 r1 n2 r2 inds vals ->
  rp_hooi (0 : R) +%R *%R qr rand rsvd norm norm0 grew inds vals (n0, n1, n2) (r0, r1, r2) n_iter = Ok (fs, core) ->
  (0 < n_iter)%N ->
  exists2 g, core = Some g & projection n0 r0 n1 r1 n2 r2 (dense (List.combine inds vals)) fs g.
Proof. exact: Hooi_final.rp_projects_main. Qed.
Print Assumptions rp_hooi_projects.

(** C57.  If the inner SVD returns a best subspace, then from the second sweep on the
    squared norm of the core never decreases, and it never exceeds that of the attended
    data. *)
Theorem core_norm_ascends :
  forall (R : realDomainType) (rsvd : nat -> mat R -> nat -> res (mat R * list R * mat R)),
  inner_ok rsvd -> optimal rsvd ->
  forall n0 r0 n1 r1 n2 r2 (data : cell -> R) (att : mat R),
  (r0 <= n0)%N -> (r1 <= n1)%N -> (r2 <= n2)%N ->
  (r0 <= r1 * r2)%N -> (r1 <= r0 * r2)%N -> (r2 <= r0 * r1)%N ->
  forall (N C : Type) (norm : ten R -> N) norm0 grew (cb : option (@callback R C)) force n k F G S,
  run norm norm0 grew cb force (sweep n0 r0 n1 r1 r2 data (mx n2 n2 att) rsvd) n k F G S ->
  (forall t, (0 < t < k)%N -> sumsq r0 r1 r2 (tget 0 (G t)) <= sumsq r0 r1 r2 (tget 0 (G t.+1))) /\
  (forall t, (0 < t <= k)%N -> sumsq r0 r1 r2 (tget 0 (G t)) <= sumsq n0 n1 n2 (attended n2 att data)).
Proof. exact: Hooi_ascent.ascent_main. Qed.
Print Assumptions core_norm_ascends.

(** C57.  Hence a growth test that accepts every first core and every core that is not
    smaller (a tolerance of at most 0) never stops before n_iter sweeps. *)
Theorem no_early_stop :
  forall (R : realDomainType) (rsvd : nat -> mat R -> nat -> res (mat R * list R * mat R)),
  inner_ok rsvd -> optimal rsvd ->
  forall n0 r0 n1 r1 n2 r2 (data : cell -> R) (att : mat R),
  (r0 <= n0)%N -> (r1 <= n1)%N -> (r2 <= n2)%N ->
  (r0 <= r1 * r2)%N -> (r1 <= r0 * r2)%N -> (r2 <= r0 * r1)%N ->
  forall (N C : Type) (norm : ten R -> N) norm0 grew (cb : option (@callback R C)) force n k F G S,
  run norm norm0 grew cb force (sweep n0 r0 n1 r1 r2 data (mx n2 n2 att) rsvd) n k F G S ->
  cb = None -> (forall g, grew (norm g) norm0) ->
  (forall g h, sumsq r0 r1 r2 (tget 0 h) <= sumsq r0 r1 r2 (tget 0 g) -> grew (norm g) (norm h)) -> k = n.
Proof. exact: Hooi_ascent.full_main. Qed.
Print Assumptions no_early_stop.

(** C57.  A best subspace exists in particular whenever the SVD is kept in full. *)
Theorem full_svd_is_optimal :
  forall (R : realDomainType) (svd : nat -> mat R -> res (mat R * list R * mat R)),
  (forall t, svd_ok (svd t)) ->
  let f := fun t x r => if (minn (mr x) (mc x) <= r)%N then svd t x else Err LinAlgError in
  inner_ok f /\ optimal f.
Proof. exact: Hooi_final.full_svd_main. Qed.
Print Assumptions full_svd_is_optimal.

(** C58.  hosvd: each factor holds the reversed left vectors of its sparse unfolding, and
    factors and core represent the projection of the data; an invalid rank raises
    RuntimeError, and nothing else fails but the sparse SVD. *)
Theorem hosvd_projects :
  forall (R : comRingType) (qr : mat R -> res (mat R * mat R)) rand (svds_u : @coo R -> nat -> res (mat R)),
  svds_ok svds_u ->
  forall n0 r0 n1 r1 n2 r2 inds (vals : list R),
  length vals = length inds -> List.Forall (in_range (n0, n1, n2)) inds ->
  match hosvd (0 : R) +%R *%R qr rand svds_u inds vals (n0, n1, n2) (r0, r1, r2) with
  | Err e => (e = RuntimeError /\ ~ [/\ (r0 <= r1 * r2)%N, (r1 <= r0 * r2)%N & (r2 <= r0 * r1)%N])
             \/ exists y q, svds_u y q = Err e
  | Ok (fs, core) =>
    [/\ [/\ (r0 <= r1 * r2)%N, (r1 <= r0 * r2)%N & (r2 <= r0 * r1)%N],
        [/\ sparse_factor svds_u 0 1 2 n0 n1 n2 r0 (List.combine inds vals) (factor fs 0),
            sparse_factor svds_u 1 0 2 n1 n0 n2 r1 (List.combine inds vals) (factor fs 1)
          & sparse_factor svds_u 2 0 1 n2 n0 n1 r2 (List.combine inds vals) (factor fs 2)],
        core_of (dense (List.combine inds vals)) (mx n0 r0 (factor fs 0)) (mx n1 r1 (factor fs 1)) (mx n2 r2 (factor fs 2)) core
      & projection n0 r0 n1 r1 n2 r2 (dense (List.combine inds vals)) fs core]
  end.
Proof. exact: Hosvd_main.hosvd_main. Qed.
Print Assumptions hosvd_projects.

(** C58.  hosvd_dense, for every tensor: a rank larger than the size of its mode is cut to
    the size. *)
Theorem hosvd_dense_projects :
  forall (R : comRingType) (qr : mat R -> res (mat R * mat R)) rand
    (rsvd : nat -> mat R -> nat -> res (mat R * list R * mat R)),
  right_ok rsvd ->
  forall n0 r0 n1 r1 n2 r2 (x : ten R), twf x -> tshape x = (n0, n1, n2) ->
  let k0 := minn r0 (minn (n1 * n2) n0) in let k1 := minn r1 (minn (n0 * n2) n1) in
  let k2 := minn r2 (minn (n0 * n1) n2) in
  match hosvd_dense (0 : R) +%R *%R qr rand rsvd x (r0, r1, r2) with
  | Err e => (e = RuntimeError /\ ~ [/\ (r0 <= r1 * r2)%N, (r1 <= r0 * r2)%N & (r2 <= r0 * r1)%N])
             \/ exists t y q, rsvd t y q = Err e
  | Ok (fs, core) =>
    [/\ [/\ (r0 <= r1 * r2)%N, (r1 <= r0 * r2)%N & (r2 <= r0 * r1)%N],
        [/\ unfolding_factor (fun y => rsvd 0%N y r0) 0 1 n0 n1 n2 k0 (tget 0 x) (factor fs 0),
            unfolding_factor (fun y => rsvd 1%N y r1) 1 0 n1 n0 n2 k1 (tget 0 x) (factor fs 1)
          & unfolding_factor (fun y => rsvd 2%N y r2) 2 0 n2 n0 n1 k2 (tget 0 x) (factor fs 2)],
        core_of (tget 0 x) (mx n0 k0 (factor fs 0)) (mx n1 k1 (factor fs 1)) (mx n2 k2 (factor fs 2)) core
      & projection n0 k0 n1 k1 n2 k2 (tget 0 x) fs core]
  end.
Proof. exact: Hosvd_main.hosvd_dense_main. Qed.
Print Assumptions hosvd_dense_projects.

(** C58.  tucker2_dense keeps one mode untouched; if the rank is not a valid Tucker rank it
    uses full SVDs, returns square factors and is exact. *)
Theorem tucker2_dense_projects :
  forall (R : comRingType) (qr : mat R -> res (mat R * mat R)) rand
    (rsvd : nat -> mat R -> nat -> res (mat R * list R * mat R)) svd_full,
  right_ok rsvd -> svd_full_ok svd_full ->
  forall n0 r0 n1 r1 n2 r2 (x : ten R) im, twf x -> tshape x = (n0, n1, n2) -> (im < 3)%N ->
  axis (r0, r1, r2) im = axis (n0, n1, n2) im ->
  let valid := [&& (r0 <= r1 * r2)%N, (r1 <= r0 * r2)%N & (r2 <= r0 * r1)%N] in
  let k0 := if im == 0%N then n0 else if valid then minn r0 (minn (n1 * n2) n0) else n0 in
  let k1 := if im == 1%N then n1 else if valid then minn r1 (minn (n0 * n2) n1) else n1 in
  let k2 := if im == 2%N then n2 else if valid then minn r2 (minn (n0 * n1) n2) else n2 in
  let svd mode r y := if valid then rsvd mode y r else svd_full y in
  match tucker2_dense (0 : R) 1 +%R *%R qr rand rsvd svd_full x (r0, r1, r2) im with
  | Err e => (exists t y q, rsvd t y q = Err e) \/ exists y, svd_full y = Err e
  | Ok (fa, fb, core) => exists u v w,
    [/\ (fa, fb) = (if im is 0 then (v, w) else if im is 1 then (u, w) else (u, v)),
        [/\ if im == 0%N then mx n0 n0 u = 1%:M else unfolding_factor (svd 0%N r0) 0 1 n0 n1 n2 k0 (tget 0 x) u,
            if im == 1%N then mx n1 n1 v = 1%:M else unfolding_factor (svd 1%N r1) 1 0 n1 n0 n2 k1 (tget 0 x) v
          & if im == 2%N then mx n2 n2 w = 1%:M else unfolding_factor (svd 2%N r2) 2 0 n2 n0 n1 k2 (tget 0 x) w],
        core_of (tget 0 x) (mx n0 k0 u) (mx n1 k1 v) (mx n2 k2 w) core,
        projection n0 k0 n1 k1 n2 k2 (tget 0 x) (u, v, w) core
      & ~~ valid -> forall c, in_range (n0, n1, n2) c -> rep u v w core c = tget 0 x c]
  end.
Proof. exact: Hosvd_main.tucker2_dense_bool_main. Qed.
Print Assumptions tucker2_dense_projects.

(** C58.  tucker2 on sparse data: a run that leaves the identity mode alone; after at least
    one sweep the two factors, the identity and the core represent the projection. *)
Theorem tucker2_projects :
  forall (R : comRingType) (qr : mat R -> res (mat R * mat R)) rand
    (rsvd : nat -> mat R -> nat -> res (mat R * list R * mat R)),
  qr_ok qr -> (forall m, randn_ok (rand m)) -> inner_ok rsvd ->
  forall (N : Type) (norm : ten R -> N) norm0 grew n0 r0 n1 r1 n2 r2 inds vals im,
  hooi_args n0 r0 n1 r1 n2 r2 inds vals ->
  forall n_iter, (im < 3)%N -> axis (r0, r1, r2) im = axis (n0, n1, n2) im ->
  match tucker2 (0 : R) 1 +%R *%R qr rand rsvd norm norm0 grew inds vals (n0, n1, n2) (r0, r1, r2) im n_iter with
  | Err e => (exists x, qr x = Err e) \/ (exists t x r, rsvd t x r = Err e)
  | Ok (fa, fb, core) => exists k F G (S : nat -> unit) (u v w : mat R),
    [/\ F k = (u, v, w), (fa, fb) = (if im is 0 then (v, w) else if im is 1 then (u, w) else (u, v)),
        [/\ if im == 0%N then mx n0 r0 (factor (F 0%N) 0) = \matrix_(i, j) (i == j :> nat)%:R else start_factor qr rand 0 n0 r0 None (factor (F 0%N) 0),
            if im == 1%N then mx n1 r1 (factor (F 0%N) 1) = \matrix_(i, j) (i == j :> nat)%:R else start_factor qr rand 1 n1 r1 None (factor (F 0%N) 1)
          & if im == 2%N then mx n2 r2 (factor (F 0%N) 2) = \matrix_(i, j) (i == j :> nat)%:R else start_factor qr rand 2 n2 r2 None (factor (F 0%N) 2)],
        run norm norm0 grew None false (sweep2 n0 r0 n1 r1 n2 r2 (dense (List.combine inds vals)) rsvd im) n_iter k F G S
      & (core = None /\ k = 0%N) \/
        exists2 g, core = Some g & projection n0 r0 n1 r1 n2 r2 (dense (List.combine inds vals)) (u, v, w) g]
  end.
Proof. exact: Tucker2_main.tucker2_main. Qed.
Print Assumptions tucker2_projects.

(** Two sweeps of ga_satf with attention; the squared norm of the core grows from 240^2 to
    625^2. *)
Example ga_satf_demo :
  [/\ qr_ok Hooi_wit.h_qr, forall m, randn_ok (Hooi_wit.h_rand m), inner_ok Hooi_wit.h_rsvd /\ optimal Hooi_wit.h_rsvd
    & hooi_args 2 1 2 1 2 1 Hooi_wit.h_inds Hooi_wit.h_vals].
Proof. split; [exact: Hooi_wit.h_qr_ok|exact: Hooi_wit.h_rand_ok|exact: Hooi_wit.h_inner|exact: Hooi_wit.h_args]. Qed.
Example ga_satf_demo_run :
  let go n := Hooi_wit.show (ga_satf 0 +%R *%R Hooi_wit.h_qr Hooi_wit.h_rand Hooi_wit.h_rsvd Hooi_wit.h_norm 0 Hooi_wit.h_grew
    Hooi_wit.h_inds Hooi_wit.h_vals (2, 2, 2)%N (1, 1, 1)%N Hooi_wit.h_att n None None false tt) in
  (go 1%N == Some ([:: 1; 0], [:: 1; 0], [:: frac 3 5; frac 4 5], [:: 240%:Q])) &&
  (go 2%N == Some ([:: frac 3 5; frac (-4) 5], [:: frac 4 5; frac (-3) 5], [:: 0; 1], [:: 625%:Q])).
Proof. by vm_compute. Qed.

(** rp_hooi on data that fills a 2 x 2 x 1 tensor, tucker2 with the third mode kept. *)
Example rp_hooi_demo : hooi_args 2 1 2 1 1 1 Hooi_wit.p_inds Hooi_wit.p_vals.
Proof. exact: Hooi_wit.p_args. Qed.
Example rp_hooi_demo_run :
  match rp_hooi 0 +%R *%R Hooi_wit.h_qr Hooi_wit.h_rand Hooi_wit.h_rsvd Hooi_wit.h_norm 0 Hooi_wit.h_grew
          Hooi_wit.p_inds Hooi_wit.p_vals (2, 2, 2)%N (1, 1, 1)%N 1,
        tucker2 0 1 +%R *%R Hooi_wit.h_qr Hooi_wit.h_rand Hooi_wit.h_rsvd Hooi_wit.h_norm 0 Hooi_wit.h_grew
          Hooi_wit.p_inds Hooi_wit.p_vals (2, 2, 1)%N (1, 1, 1)%N 2 1 with
  | Ok ((f0, f1, f2), Some g), Ok (a, b, Some h) =>
    [&& mdat f0 == [:: frac 3 5; frac 4 5], mdat f1 == [:: frac 5 13; frac 12 13], mdat f2 == [:: 1; 0], tdat g == [:: 13%:Q],
        mdat a == [:: frac 3 5; frac 4 5], mdat b == [:: frac 5 13; frac 12 13] & tdat h == [:: 13%:Q]]
  | _, _ => false
  end.
Proof. by vm_compute. Qed.

(** The one-pass decompositions: hosvd and hosvd_dense with rank one; tucker2_dense with an
    invalid rank is exact. *)
Example hosvd_demo :
  [/\ svds_ok Hooi_wit.h_svds, right_ok Hooi_wit.h_right & svd_full_ok Hooi_wit.h_full].
Proof. split; [exact: Hooi_wit.h_svds_ok|exact: Hooi_wit.h_right_ok|exact: Hooi_wit.h_full_ok]. Qed.
Example hosvd_demo_run :
  match hosvd 0 +%R *%R Hooi_wit.h_qr Hooi_wit.h_rand Hooi_wit.h_svds Hooi_wit.p_inds Hooi_wit.p_vals (2, 2, 1)%N (1, 1, 1)%N,
        hosvd_dense 0 +%R *%R Hooi_wit.h_qr Hooi_wit.h_rand Hooi_wit.h_right Hooi_wit.p_ten (1, 1, 1)%N,
        tucker2_dense 0 1 +%R *%R Hooi_wit.h_qr Hooi_wit.h_rand Hooi_wit.h_right Hooi_wit.h_full Hooi_wit.p_ten (1, 2, 1)%N 2 with
  | Ok ((f0, f1, f2), g), Ok ((d0, d1, d2), dg), Ok (a, b, h) =>
    [&& mdat f0 == [:: frac 3 5; frac 4 5], tdat g == [:: frac 63 5], mdat d1 == [:: frac 3 5; frac 4 5], tdat dg == tdat g,
        tdat h == [:: frac (-48) 5; frac 64 5; frac (-16) 5; frac 63 5]
      & rep a b Hooi_wit.one11 h (0, 1, 0)%N == 20%:Q]
  | _, _, _ => false
  end.
Proof. by vm_compute. Qed.
