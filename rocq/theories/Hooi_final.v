(** What the returned factors and core represent; an SVD kept in full is optimal. *)
From Verif Require Import Prelude Tensor_model Tensor_spec Matrix_model Attention_model LinAlg_model Hooi_model.
Set Warnings "-notation-overridden".
From mathcomp Require Import all_ssreflect all_algebra.
From Verif Require Import LinAlg_spec LinAlg_bridge Tucker_spec Tucker_bridge Hooi_spec Hooi_bridge Hooi_main Hooi_ident Hooi_run Hooi_exact Hooi_ascent.
Set Implicit Arguments.
Unset Strict Implicit.
Unset Printing Implicit Defensive.
Import GRing.Theory Num.Theory.
Local Open Scope ring_scope.

Section Final.
Variable R : comRingType.
Variables (qr : mat R -> res (mat R * mat R)) (rand : nat -> nat -> nat -> mat R).
Variable rsvd : nat -> mat R -> nat -> res (mat R * list R * mat R).
Hypothesis QR : qr_ok qr.
Hypothesis RAND : forall m, randn_ok (rand m).
Hypothesis INNER : inner_ok rsvd.
Variables (N C : Type) (norm : ten R -> N) (norm0 : N) (grew : N -> N -> bool).

Lemma projection_of n0 r0 n1 r1 n2 r2 (u v w : mat R) core t :
  shape n0 r0 u -> shape n1 r1 v -> shape n2 r2 w ->
  orthonormal n0 r0 u -> orthonormal n1 r1 v -> orthonormal n2 r2 w ->
  core_of t (mx n0 r0 u) (mx n1 r1 v) (mx n2 r2 w) core ->
  projection n0 r0 n1 r1 n2 r2 t (u, v, w) core.
Proof.
  move=> Hu Hv Hw Ou Ov Ow CO. rewrite /projection /factor /=. split=> //.
  - exact: (rep_proj_main Hu Hv Hw CO).
  - exact: (rep_exact_main Hu Hv Hw Ou Ov Ow CO).
  - exact: (pythagoras_main Hu Hv Hw Ou Ov Ow CO).
Qed.

Lemma ga_projects_main n0 r0 n1 r1 n2 r2 inds vals att n_iter (cb : option (@callback R C)) init force st fs core st' :
  hooi_args n0 r0 n1 r1 n2 r2 inds vals -> shape n2 n2 att ->
  (if init is Some xs then [/\ (mr (factor xs 0) <= n0)%N /\ mc (factor xs 0) = r0,
                               (mr (factor xs 1) <= n1)%N /\ mc (factor xs 1) = r1
                             & (mr (factor xs 2) <= n2)%N /\ mc (factor xs 2) = r2] else True) ->
  ga_satf (0 : R) +%R *%R qr rand rsvd norm norm0 grew inds vals (n0, n1, n2) (r0, r1, r2) att n_iter cb init force st
    = Ok (fs, core, st') -> (0 < n_iter)%N ->
  exists2 g, core = Some g & projection n0 r0 n1 r1 n2 r2 (attended n2 att (dense (List.combine inds vals))) fs g.
Proof.
  move=> ARGS ATT IN E NI.
  have := ga_run_main QR RAND INNER norm norm0 grew n_iter cb force st ARGS ATT IN.
  rewrite E => -[k [F [G [S [_ _ [_ K SW _] [-> -> _ P]]]]]]. have K0 := K NI.
  have [S0 S1 S2 [O0 O1 O2]] := P K0. exists (G k); first by case: (k) K0.
  have := SW k.-1. rewrite prednK // => /(_ (leqnn k)) [wa [m0 [m1 [m2 [m2' [_ _ _ _ CO]]]]]].
  case: (F k) S0 S1 S2 O0 O1 O2 CO => -[u v] w S0 S1 S2 O0 O1 O2 CO.
  apply: (projection_of S0 S1 S2 O0 O1 O2). exact: core_of_att CO.
Qed.

Lemma rp_projects_main n0 r0 n1 r1 n2 r2 inds vals n_iter fs core :
  hooi_args n0 r0 n1 r1 n2 r2 inds vals ->
  rp_hooi (0 : R) +%R *%R qr rand rsvd norm norm0 grew inds vals (n0, n1, n2) (r0, r1, r2) n_iter = Ok (fs, core) ->
  (0 < n_iter)%N ->
  exists2 g, core = Some g & projection n0 r0 n1 r1 n2 r2 (dense (List.combine inds vals)) fs g.
Proof.
  move=> ARGS E NI. have := rp_run_main QR RAND INNER norm norm0 grew n_iter ARGS.
  rewrite E => -[k [F [G [S [_ [_ K SW _] [-> -> P]]]]]]. have K0 := K NI.
  have [S0 S1 S2 [O0 O1 O2]] := P K0. exists (G k); first by case: (k) K0.
  have := SW k.-1. rewrite prednK // => /(_ (leqnn k)) [wa [m0 [m1 [m2 [m2' [_ _ _ _]]]]]].
  rewrite mul1mx => CO. case: (F k) S0 S1 S2 O0 O1 O2 CO => -[u v] w S0 S1 S2 O0 O1 O2 CO.
  exact: (projection_of S0 S1 S2 O0 O1 O2).
Qed.
End Final.

(** No orthonormal vectors catch more than the whole squared norm; an SVD kept in full
    catches all of it. *)
Lemma full_svd_main (R : realDomainType) (svd : nat -> mat R -> res (mat R * list R * mat R)) :
  (forall t, svd_ok (svd t)) ->
  let f := fun t x r => if (minn (mr x) (mc x) <= r)%N then svd t x else Err LinAlgError in
  inner_ok f /\ optimal f.
Proof.
  move=> SVD f.
  have I t x r u s vt : f t x r = Ok (u, s, vt) -> minn r (minn (mr x) (mc x)) = minn (mr x) (mc x) /\ svd t x = Ok (u, s, vt).
    by rewrite /f; case: ifP => // L E; split=> //; apply/minn_idPr.
  split=> t x r u s vt /I [Ek E]; rewrite /= Ek.
    by have [Hu _ _ _ [O _]] := SVD t _ _ _ _ E.
  have [_ _ _ P [O _]] := SVD t _ _ _ _ E. move=> V OV.
  set m := mr x in P O V OV *. set n := mc x in P O V OV *. set k := minn m n in P O V OV *.
  set X := mx m n x in P *. set U := mx m k u in P O *. set B := dg k s *m mx k n vt.
  have EX : X = U *m B by rewrite /B mulmxA.
  have EB : U^T *m X = B by rewrite EX mulmxA O mul1mx.
  have TX : \tr (X *m X^T) = \tr (B *m B^T).
    by rewrite EX trmx_mul mxtrace_mulC -mulmxA (mulmxA U^T) O mul1mx mxtrace_mulC.
  rewrite EB -TX. set D := X - V *m (V^T *m X).
  have ED : \tr (X *m X^T) = \tr ((V^T *m X) *m (V^T *m X)^T) + \tr (D *m D^T).
    have PT : \tr (V *m (V^T *m X) *m X^T) = \tr ((V^T *m X) *m (V^T *m X)^T).
      by rewrite -mulmxA mxtrace_mulC [in RHS]trmx_mul trmxK !mulmxA.
    have TP : \tr (X *m (V *m (V^T *m X))^T) = \tr ((V^T *m X) *m (V^T *m X)^T).
      by rewrite -PT -mxtrace_tr trmx_mul trmxK.
    have PP : \tr (V *m (V^T *m X) *m (V *m (V^T *m X))^T) = \tr ((V^T *m X) *m (V^T *m X)^T).
      by rewrite [(V *m _)^T]trmx_mul mxtrace_mulC -mulmxA (mulmxA V^T V) OV mul1mx mxtrace_mulC.
    by rewrite /D linearB /= mulmxBl !mulmxBr !raddfB /= PP PT TP subrr addr0 addrC subrK.
  rewrite ED ler_addl /mxtrace. apply: sumr_ge0 => i _. rewrite mxE. apply: sumr_ge0 => j _.
  by rewrite [_^T _ _]mxE -expr2 sqr_ge0.
Qed.

Lemma ga_checks_main (R : comRingType) (qr : mat R -> res (mat R * mat R)) rand
    (rsvd : nat -> mat R -> nat -> res (mat R * list R * mat R)) :
  qr_ok qr -> (forall m, randn_ok (rand m)) -> inner_ok rsvd ->
  forall (N C : Type) (norm : ten R -> N) norm0 grew n0 r0 n1 r1 n2 r2 inds vals att n_iter
    (cb : option (@callback R C)) force st L,
  (0 < n0)%N -> (0 < n1)%N -> (0 < n2)%N -> (0 < r0)%N -> (0 < r1)%N -> (0 < r2)%N ->
  length vals = length inds -> List.Forall (in_range (n0, n1, n2)) inds -> shape L L att -> (0 < n_iter)%N ->
  let valid := [/\ (r0 <= r1 * r2)%N, (r1 <= r0 * r2)%N & (r2 <= r0 * r1)%N] in
  let fits := [/\ (r0 <= n0)%N, (r1 <= n1)%N, (r2 <= n2)%N & L = n2] in
  match ga_satf (0 : R) +%R *%R qr rand rsvd norm norm0 grew inds vals (n0, n1, n2) (r0, r1, r2) att n_iter cb None force st with
  | Ok _ => valid /\ fits
  | Err e => (exists x, qr x = Err e) \/ (exists t x r, rsvd t x r = Err e)
             \/ (exists c s f g, [/\ force = false, cb = Some c & c s f g = Err e])
             \/ (e = RuntimeError /\ ~ valid)
             \/ [/\ e = ValueError, valid & ~ fits]
  end.
Proof.
  move=> QR RAND INNER N C norm norm0 grew n0 r0 n1 r1 n2 r2 inds vals att n_iter cb force st L H0 H1 H2 H3 H4 H5 LV FR AT NI valid fits.
  have := ga_shape_main QR RAND INNER norm norm0 grew cb force st H0 H1 H2 H3 H4 H5 LV FR AT NI (erefl : None = None).
  case: (ga_satf _ _ _ _ _ _ _ _ _ _ _ _ _ _ _ _ _ _) => [[[fs core] st']|e].
    by move=> [/rank_validE V L0 L1 L2 E].
  move=> [H|[H|[H|[[-> V]|[-> /rank_validE V NF]]]]]; [by left|by right; left|by do 2 right; left| |by do 4 right].
  do 3 right; left. by split=> // /rank_validE; rewrite V.
Qed.

Lemma ga_identity_full (R : comRingType) (qr : mat R -> res (mat R * mat R)) rand
    (rsvd : nat -> mat R -> nat -> res (mat R * list R * mat R)) :
  (forall x q r, qr x = Ok (q, r) -> mr q = mr x) -> (forall m n r, mr (rand m n r) = n) ->
  (forall t x r u s vt, rsvd t x r = Ok (u, s, vt) -> mr u = mr x) ->
  forall (N C : Type) (norm : ten R -> N) norm0 grew inds vals n0 n1 n2 rank n_iter (st : C),
  ga_satf 0 +%R *%R qr rand rsvd norm norm0 grew inds vals (n0, n1, n2) rank (eye 0 1 n2) n_iter None None false st
  = (do r <- rp_hooi 0 +%R *%R qr rand rsvd norm norm0 grew inds vals (n0, n1, n2) rank n_iter; Ok (r, st)).
Proof. by move=> H1 H2 H3 N C norm norm0 grew inds vals n0 n1 n2 rank n_iter st; apply: ga_identity_main. Qed.
