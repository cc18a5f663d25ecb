(** C101: more sweeps. *)
From Verif Require Import Prelude Tensor_model Tensor_spec Matrix_model Attention_model LinAlg_model Hooi_model Relerr_model.
Set Warnings "-notation-overridden".
From mathcomp Require Import all_ssreflect all_algebra.
From Verif Require Import LinAlg_spec Tucker_spec Hooi_spec Relerr_spec Sweeps_main Sweeps_wit Hooi_wit LinAlg_tables.
Set Implicit Arguments.
Unset Strict Implicit.
Unset Printing Implicit Defensive.
Import GRing.Theory Num.Theory.
Local Open Scope ring_scope.

(** C101: all budgets of sweeps share one run: with [l <= n] sweeps allowed, ga_satf returns
    what the run of [n] had after [l] sweeps, or at its end if it stopped before. *)
Theorem budgets_share_one_run :
  forall (R : comRingType) (qr : mat R -> res (mat R * mat R)) rand (rsvd : nat -> mat R -> nat -> res (mat R * list R * mat R)),
  qr_ok qr -> (forall m, randn_ok (rand m)) -> inner_ok rsvd ->
  forall (N C : Type) (norm : ten R -> N) norm0 grew n0 r0 n1 r1 n2 r2 inds (vals : list R) att
    (cb : option (@callback R C)) init force st,
  let ga n := ga_satf (0 : R) +%R *%R qr rand rsvd norm norm0 grew inds vals (n0, n1, n2) (r0, r1, r2) att n cb init force st in
  forall n r,
  hooi_args n0 r0 n1 r1 n2 r2 inds vals -> shape n2 n2 att ->
  (if init is Some xs then [/\ (mr (factor xs 0) <= n0)%N /\ mc (factor xs 0) = r0,
                               (mr (factor xs 1) <= n1)%N /\ mc (factor xs 1) = r1
                             & (mr (factor xs 2) <= n2)%N /\ mc (factor xs 2) = r2] else True) ->
  ga n = Ok r ->
  exists k F G S,
  [/\ start qr rand n0 r0 n1 r1 n2 r2 init (F 0%N), S 0%N = st,
      run norm norm0 grew cb force (sweep n0 r0 n1 r1 r2 (dense (List.combine inds vals)) (mx n2 n2 att) rsvd) n k F G S
    & forall l, (l <= n)%N ->
      ga l = Ok (F (minn l k), (if minn l k is 0 then None else Some (G (minn l k))), S (minn l k))].
Proof. move=> R qr rand rsvd QR RAND INNER N C norm norm0 grew n0 r0 n1 r1 n2 r2 inds vals att cb init force st ga n r. exact: ga_trajectory. Qed.
Print Assumptions budgets_share_one_run.

(** C101: with an inner SVD that returns best subspaces, raising the number of sweeps never
    lowers the norm of the core and never raises the distance of the decomposition to the
    attended data, whatever the callback and the growth test. *)
Theorem more_sweeps_ga_satf :
  forall (R : realFieldType) (qr : mat R -> res (mat R * mat R)) rand (rsvd : nat -> mat R -> nat -> res (mat R * list R * mat R)),
  qr_ok qr -> (forall m, randn_ok (rand m)) -> inner_ok rsvd -> optimal rsvd ->
  forall (N : Type) (norm : ten R -> N) norm0 grew n0 r0 n1 r1 n2 r2 inds (vals : list R),
  hooi_args n0 r0 n1 r1 n2 r2 inds vals ->
  forall (C : Type) att (cb : option (@callback R C)) init force st n n' fs' core' st',
  let ga m := ga_satf (0 : R) +%R *%R qr rand rsvd norm norm0 grew inds vals (n0, n1, n2) (r0, r1, r2) att m cb init force st in
  let t := attended n2 att (dense (List.combine inds vals)) in
  let residual fs g := sumsq n0 n1 n2 (fun c => t c - rep (factor fs 0) (factor fs 1) (factor fs 2) g c) in
  shape n2 n2 att ->
  (if init is Some xs then [/\ (mr (factor xs 0) <= n0)%N /\ mc (factor xs 0) = r0,
                               (mr (factor xs 1) <= n1)%N /\ mc (factor xs 1) = r1
                             & (mr (factor xs 2) <= n2)%N /\ mc (factor xs 2) = r2] else True) ->
  (0 < n <= n')%N -> ga n' = Ok (fs', core', st') ->
  exists fs g g' st1, [/\ ga n = Ok (fs, Some g, st1), core' = Some g',
    sumsq r0 r1 r2 (tget 0 g) <= sumsq r0 r1 r2 (tget 0 g') & residual fs' g' <= residual fs g].
Proof. exact: more_main. Qed.
Print Assumptions more_sweeps_ga_satf.

(** C101: the same for rp_hooi and the data itself. *)
Theorem more_sweeps_rp_hooi :
  forall (R : realFieldType) (qr : mat R -> res (mat R * mat R)) rand (rsvd : nat -> mat R -> nat -> res (mat R * list R * mat R)),
  qr_ok qr -> (forall m, randn_ok (rand m)) -> inner_ok rsvd -> optimal rsvd ->
  forall (N : Type) (norm : ten R -> N) norm0 grew n0 r0 n1 r1 n2 r2 inds (vals : list R),
  hooi_args n0 r0 n1 r1 n2 r2 inds vals ->
  let rp m := rp_hooi (0 : R) +%R *%R qr rand rsvd norm norm0 grew inds vals (n0, n1, n2) (r0, r1, r2) m in
  let residual fs g :=
    sumsq n0 n1 n2 (fun c => dense (List.combine inds vals) c - rep (factor fs 0) (factor fs 1) (factor fs 2) g c) in
  forall n n' fs' core', (0 < n <= n')%N -> rp n' = Ok (fs', core') ->
  exists fs g g', [/\ rp n = Ok (fs, Some g), core' = Some g',
    sumsq r0 r1 r2 (tget 0 g) <= sumsq r0 r1 r2 (tget 0 g') & residual fs' g' <= residual fs g].
Proof. move=> R qr rand rsvd QR RAND INNER OPT N norm norm0 grew n0 r0 n1 r1 n2 r2 inds vals ARGS rp residual n n' fs' core'. exact: more_rp_main. Qed.
Print Assumptions more_sweeps_rp_hooi.

(** C101: and the relative error reported for data that list every cell does not rise. *)
Theorem more_sweeps_error :
  forall (R : realFieldType) (qr : mat R -> res (mat R * mat R)) rand (rsvd : nat -> mat R -> nat -> res (mat R * list R * mat R)),
  qr_ok qr -> (forall m, randn_ok (rand m)) -> inner_ok rsvd -> optimal rsvd ->
  forall (N : Type) (norm : ten R -> N) norm0 grew n0 r0 n1 r1 n2 r2 inds (vals : list R),
  hooi_args n0 r0 n1 r1 n2 r2 inds vals ->
  forall (sqrt : R -> R) eps n n' fs' core', root_ok sqrt -> 0 < eps -> List.NoDup inds ->
  (forall c, in_range (n0, n1, n2) c -> List.In c inds) ->
  let rp m := rp_hooi (0 : R) +%R *%R qr rand rsvd norm norm0 grew inds vals (n0, n1, n2) (r0, r1, r2) m in
  (0 < n <= n')%N -> rp n' = Ok (fs', core') ->
  exists fs g g' e e', [/\ rp n = Ok (fs, Some g), core' = Some g',
    tensor_error sqrt eps inds vals (factor fs 0) (factor fs 1) (factor fs 2) g = Ok e,
    tensor_error sqrt eps inds vals (factor fs' 0) (factor fs' 1) (factor fs' 2) g' = Ok e' & e' <= e].
Proof. exact: more_error_main. Qed.
Print Assumptions more_sweeps_error.

(** C101: on data that do not list every cell the reported error can rise with the second
    sweep, although every inner SVD is optimal. *)
Theorem listed_error_never_rises_refuted :
  exists (qr : mat rat -> res (mat rat * mat rat)) rand rsvd inds vals,
  [/\ qr_ok qr /\ forall m, randn_ok (rand m), inner_ok rsvd /\ optimal rsvd,
      hooi_args 2 1 2 2 2 2 inds vals /\ List.NoDup inds
    & forall (sqrt : rat -> rat) eps, root_ok sqrt -> 0 < eps ->
      let rp n := rp_hooi (0 : rat) +%R *%R qr rand rsvd h_norm 0 h_grew inds vals (2, 2, 2)%N (1, 2, 2)%N n in
      exists fs g e fs' g' e',
      [/\ rp 1%N = Ok (fs, Some g), rp 2%N = Ok (fs', Some g'),
          tensor_error sqrt eps inds vals (factor fs 0) (factor fs 1) (factor fs 2) g = Ok e,
          tensor_error sqrt eps inds vals (factor fs' 0) (factor fs' 1) (factor fs' 2) g' = Ok e'
        & e < e']].
Proof. exact: listed_main. Qed.
Print Assumptions listed_error_never_rises_refuted.

(** C101: with an inner SVD that is only orthonormal - all that random_svd guarantees - the
    second sweep can be worse; the growth test notices, stops, and returns the worse one. *)
Theorem stopping_keeps_the_best_refuted :
  exists (qr : mat rat -> res (mat rat * mat rat)) rand rsvd inds vals,
  [/\ qr_ok qr /\ forall m, randn_ok (rand m), inner_ok rsvd,
      hooi_args 2 1 2 2 2 2 inds vals /\ List.NoDup inds
    & let rp n := rp_hooi (0 : rat) +%R *%R qr rand rsvd h_norm 0 h_grew inds vals (2, 2, 2)%N (1, 2, 2)%N n in
      let residual fs g :=
        sumsq 2 2 2 (fun c => dense (List.combine inds vals) c - rep (factor fs 0) (factor fs 1) (factor fs 2) g c) in
      exists fs g fs' g',
      [/\ rp 1%N = Ok (fs, Some g), rp 2%N = Ok (fs', Some g'), sumsq 1 2 2 (tget 0 g') < sumsq 1 2 2 (tget 0 g)
        & residual fs g < residual fs' g']].
Proof. exact: worse_main. Qed.
Print Assumptions stopping_keeps_the_best_refuted.

(** One and two sweeps with attention: the core grows from 240 to 625. *)
Example more_sweeps_demo :
  [/\ qr_ok h_qr, forall m, randn_ok (h_rand m), inner_ok h_rsvd /\ optimal h_rsvd
    & hooi_args 2 1 2 1 2 1 h_inds h_vals].
Proof. split; [exact: h_qr_ok|exact: h_rand_ok|exact: h_inner|exact: h_args]. Qed.
Example more_sweeps_demo_run :
  let go n := show (ga_satf 0 +%R *%R h_qr h_rand h_rsvd h_norm 0 h_grew
    h_inds h_vals (2, 2, 2)%N (1, 1, 1)%N h_att n None None false tt) in
  (go 1%N == Some ([:: 1; 0], [:: 1; 0], [:: frac 3 5; frac 4 5], [:: 240%:Q])) &&
  (go 2%N == Some ([:: frac 3 5; frac (-4) 5], [:: frac 4 5; frac (-3) 5], [:: 0; 1], [:: 625%:Q])).
Proof. by vm_compute. Qed.
