(** The squared norm of the core over the sweeps, and the inner SVD. *)
From Verif Require Import Prelude Tensor_model Tensor_spec Matrix_model Attention_model LinAlg_model Hooi_model.
Set Warnings "-notation-overridden".
From mathcomp Require Import all_ssreflect all_algebra.
From Verif Require Import LinAlg_spec LinAlg_bridge LinAlg_psi Tucker_spec Tucker_bridge Tucker_modes Hooi_spec Hooi_bridge Hooi_main Hooi_exact.
Set Implicit Arguments.
Unset Strict Implicit.
Unset Printing Implicit Defensive.
Import GRing.Theory Num.Theory.
Local Open Scope ring_scope.

Lemma random_svd_inner_right_main (R : comRingType) (qr : nat -> mat R -> res (mat R * mat R))
  (svd : nat -> mat R -> res (mat R * list R * mat R)) (randn : nat -> nat -> nat -> mat R) npow os :
  (forall t, qr_ok (qr t)) -> (forall t, svd_ok (svd t)) -> (forall t, randn_ok (randn t)) ->
  let f := fun t x r => random_svd (0 : R) +%R *%R (qr t) (svd t) (randn t) x r npow os in
  inner_ok f /\ right_ok f.
Proof.
  move=> QR SVD RAND f.
  have H t x r u s vt : f t x r = Ok (u, s, vt) -> let k := minn r (minn (mr x) (mc x)) in
    (shape (mr x) k u /\ (mx (mr x) k u)^T *m mx (mr x) k u = 1%:M) /\
    (shape k (mc x) vt /\ mx k (mc x) vt *m (mx k (mc x) vt)^T = 1%:M).
    move=> E k.
    have := random_svd_main (QR t) (SVD t) (RAND t) r npow os (conj (erefl (mr x)) (erefl (mc x))).
    rewrite -/(f t x r) E => -[q [uf [sf [vf [_ _ _ [O O'] [Hu _ Hv Eu Ev]]]]]].
    set k' := minn (minn (mr x) (r + os)) (mc x) in O O' Hu Hv Eu Ev.
    have Ek : minn r k' = k.
      rewrite /k' /k [minn (minn (mr x) _) _]minnAC minnA. apply/minn_idPl.
      exact: leq_trans (geq_minl _ _) (leq_addr _ _).
    rewrite Ek in Hu Hv Eu Ev. split; split=> //.
    - rewrite Eu. apply: orth_cols O. by rewrite -Ek geq_minr.
    - rewrite Ev. apply: orth_rows O'. by rewrite -Ek geq_minr.
  by split=> t x r u s vt /H [].
Qed.

Section Sq.
Variable R : comRingType.

(** Squared norm of the core of [data] for three matrices. *)
Definition csq n0 r0 n1 r1 n2 r2 (data : cell -> R) (U : 'M[R]_(n0, r0)) (V : 'M[R]_(n1, r1)) (W : 'M[R]_(n2, r2)) : R :=
  \sum_(a < r0) \sum_(b < r1) \sum_(c < r2)
    (\sum_(i < n0) \sum_(j < n1) \sum_(k < n2) data (i : nat, j : nat, k : nat) * U i a * V j b * W k c) ^+ 2.

Lemma csq_core n0 r0 n1 r1 n2 r2 data (U : 'M[R]_(n0, r0)) (V : 'M[R]_(n1, r1)) (W : 'M[R]_(n2, r2)) core :
  core_of data U V W core -> sumsq r0 r1 r2 (tget 0 core) = csq data U V W.
Proof.
  by move=> [_ _ E]; apply: eq_bigr => a _; apply: eq_bigr => b _; apply: eq_bigr => c _; rewrite E.
Qed.

Lemma sum_cols ra rb (F : nat -> R) : \sum_(z < ra * rb) F z = \sum_(a < ra) \sum_(b < rb) F (a * rb + b)%N.
Proof.
  rewrite exchange_big /= -(sum_lohi (fun (b : 'I_rb) (a : 'I_ra) => F (a * rb + b)%N)) mulnC.
  apply: eq_bigr => z _. rewrite /lo /hi /=. by rewrite -divn_eq.
Qed.

Lemma contract_sq nn na ra nb rb rn c (data : cell -> R) (fa fb m : mat R) (V : 'M[R]_(nn, rn)) :
  contracts nn na ra nb rb c data fa fb m ->
  \tr ((V^T *m mx nn (ra * rb) m) *m (V^T *m mx nn (ra * rb) m)^T)
  = \sum_(p < rn) \sum_(a < ra) \sum_(b < rb)
      (\sum_(i < nn) \sum_(y < na) \sum_(z < nb) data (c i y z) * V i p * mx na ra fa y a * mx nb rb fb z b) ^+ 2.
Proof.
  move=> [_ E]. rewrite /mxtrace. apply: eq_bigr => p _. rewrite mxE.
  rewrite (eq_bigr (fun z : 'I_(ra * rb) => (\sum_(i < nn) V i p * mget 0 m i z) ^+ 2)); last first.
    move=> z _. rewrite [X in _ * X]mxE -expr2. congr (_ ^+ 2). rewrite mxE. by apply: eq_bigr => i _; rewrite !mxE.
  rewrite (sum_cols ra rb (fun z => (\sum_(i < nn) V i p * mget 0 m i z) ^+ 2)).
  apply: eq_bigr => a _; apply: eq_bigr => b _. congr (_ ^+ 2). apply: eq_bigr => i _. rewrite E //.
  rewrite big_distrr /=. apply: eq_bigr => y _. rewrite big_distrr /=. apply: eq_bigr => z _.
  by rewrite !mxE !mulrA [V i p * _]mulrC.
Qed.

Section Modes.
Variables (n0 r0 n1 r1 n2 r2 : nat) (data : cell -> R).

Lemma csq0 (U : 'M[R]_(n0, r0)) v w m : contracts n0 n1 r1 n2 r2 at0 data v w m ->
  \tr ((U^T *m mx n0 (r1 * r2) m) *m (U^T *m mx n0 (r1 * r2) m)^T) = csq data U (mx n1 r1 v) (mx n2 r2 w).
Proof. by move=> /contract_sq ->. Qed.

Lemma csq1 u (V : 'M[R]_(n1, r1)) w m : contracts n1 n0 r0 n2 r2 at1 data u w m ->
  \tr ((V^T *m mx n1 (r0 * r2) m) *m (V^T *m mx n1 (r0 * r2) m)^T) = csq data (mx n0 r0 u) V (mx n2 r2 w).
Proof.
  move=> /contract_sq ->. rewrite exchange_big /=. do 3 (apply: eq_bigr => ? _). congr (_ ^+ 2).
  rewrite exchange_big /=. do 3 (apply: eq_bigr => ? _). by rewrite /at1 [_ * V _ _ * _]mulrAC.
Qed.

Lemma csq2 u v (W : 'M[R]_(n2, r2)) m : contracts n2 n0 r0 n1 r1 at2 data u v m ->
  \tr ((W^T *m mx n2 (r0 * r1) m) *m (W^T *m mx n2 (r0 * r1) m)^T) = csq data (mx n0 r0 u) (mx n1 r1 v) W.
Proof.
  move=> /contract_sq ->. rewrite exchange_big /=. apply: eq_bigr => a _. rewrite exchange_big /=.
  do 2 (apply: eq_bigr => ? _). congr (_ ^+ 2).
  rewrite exchange_big /=. apply: eq_bigr => i _. rewrite exchange_big /=. do 2 (apply: eq_bigr => ? _).
  by rewrite /at2 -!mulrA; congr (_ * _); rewrite mulrC mulrA.
Qed.
End Modes.

Lemma trace_reversed n r k (u f : mat R) (x : 'M[R]_(n, k)) : reversed n r u f ->
  \tr (((mx n r f)^T *m x) *m ((mx n r f)^T *m x)^T) = \tr (((mx n r u)^T *m x) *m ((mx n r u)^T *m x)^T).
Proof.
  move=> /rev_perm E. rewrite /mxtrace (reindex_inj rev_ord_inj) /=. apply: eq_bigr => i _.
  rewrite !mxE. apply: eq_bigr => z _. rewrite ![_^T _ _]mxE -!expr2. congr (_ ^+ 2).
  rewrite !mxE. apply: eq_bigr => y _. by rewrite ![_^T _ _]mxE E [in LHS]mxE rev_ordK.
Qed.
End Sq.

Section Ascent.
Variable R : realDomainType.
Variable rsvd : nat -> mat R -> nat -> res (mat R * list R * mat R).
Hypotheses (INNER : inner_ok rsvd) (OPT : optimal rsvd).
Variables (n0 r0 n1 r1 n2 r2 : nat) (data : cell -> R) (att : mat R).
Hypotheses (L0 : (r0 <= n0)%N) (L1 : (r1 <= n1)%N) (L2 : (r2 <= n2)%N).
Hypotheses (V0 : (r0 <= r1 * r2)%N) (V1 : (r1 <= r0 * r2)%N) (V2 : (r2 <= r0 * r1)%N).
Notation A := (mx n2 n2 att).
Notation sweep := (sweep n0 r0 n1 r1 r2 data A rsvd).

Lemma best n m r t x u s vt f (V : 'M[R]_(n, r)) : shape n m x -> (r <= n)%N -> (r <= m)%N ->
  rsvd t x r = Ok (u, s, vt) -> reversed n r u f -> V^T *m V = 1%:M ->
  \tr ((V^T *m mx n m x) *m (V^T *m mx n m x)^T) <= \tr (((mx n r f)^T *m mx n m x) *m ((mx n r f)^T *m mx n m x)^T).
Proof.
  move=> [En Em] Ln Lm E Rv O. rewrite (trace_reversed _ Rv). subst n m. have := OPT E. rewrite /=.
  have -> : minn r (minn (mr x) (mc x)) = r by apply/minn_idPl; rewrite leq_min Ln Lm.
  by apply.
Qed.

Definition orth3 (f : @factors R) : Prop :=
  [/\ orthonormal n0 r0 (factor f 0), orthonormal n1 r1 (factor f 1) & orthonormal n2 r2 (factor f 2)].
Definition fsq (f : @factors R) : R :=
  csq data (mx n0 r0 (factor f 0)) (mx n1 r1 (factor f 1)) (A *m mx n2 r2 (factor f 2)).

Lemma sweep_orth t f f' g : sweep t f f' g -> orth3 f'.
Proof.
  move=> [wa [m0 [m1 [m2 [m2' [_ [[S0 _] [u [s [vt [E Rv]]]]] [[S1 _] [u' [s' [vt' [E' Rv']]]]] [_ [S2 _] [u2 [s2 [vt2 [E2 Rv2]]]]] _]]]]]].
  split.
  - by apply: reversed_orth Rv _; case: (inner_cols INNER E S0 L0 V0).
  - by apply: reversed_orth Rv' _; case: (inner_cols INNER E' S1 L1 V1).
  - by apply: reversed_orth Rv2 _; case: (inner_cols INNER E2 S2 L2 V2).
Qed.

Lemma sweep_core t f f' g : sweep t f f' g -> sumsq r0 r1 r2 (tget 0 g) = fsq f'.
Proof. by move=> [wa [m0 [m1 [m2 [m2' [_ _ _ _ H]]]]]]; apply: csq_core. Qed.

Lemma sweep_ascent t f f' g : orth3 f -> sweep t f f' g -> fsq f <= sumsq r0 r1 r2 (tget 0 g).
Proof.
  move=> [O0 O1 O2] H. rewrite (sweep_core H). move: H.
  move=> [wa [m0 [m1 [m2 [m2' [[_ Ew] [C0 [u [s [vt [E Rv]]]]] [C1 [u' [s' [vt' [E' Rv']]]]] [C2 [S2 Em2] [u2 [s2 [vt2 [E2 Rv2]]]]] _]]]]]].
  have B0 := best (proj1 C0) L0 V0 E Rv O0. rewrite !(csq0 _ C0) Ew in B0.
  have B1 := best (proj1 C1) L1 V1 E' Rv' O1. rewrite !(csq1 _ C1) Ew in B1.
  have B2 := best S2 L2 V2 E2 Rv2 O2. rewrite Em2 !mulmxA -!trmx_mul !(csq2 _ C2) in B2.
  exact: Order.POrderTheory.le_trans B0 (Order.POrderTheory.le_trans B1 B2).
Qed.

Lemma sweep_bound t f f' g : [/\ shape n0 r0 (factor f' 0), shape n1 r1 (factor f' 1) & shape n2 r2 (factor f' 2)] ->
  sweep t f f' g -> sumsq r0 r1 r2 (tget 0 g) <= sumsq n0 n1 n2 (attended n2 att data).
Proof.
  move=> [S0 S1 S2] H. have [O0 O1 O2] := sweep_orth H. move: H => [wa [m0 [m1 [m2 [m2' [_ _ _ _ C]]]]]].
  rewrite (pythagoras_main S0 S1 S2 O0 O1 O2 (core_of_att C)) ler_addl.
  by do 3 (apply: sumr_ge0 => ? _); apply: sqr_ge0.
Qed.

Lemma sweep_shapes t f f' g : sweep t f f' g ->
  [/\ shape n0 r0 (factor f' 0), shape n1 r1 (factor f' 1) & shape n2 r2 (factor f' 2)].
Proof.
  by move=> [wa [m0 [m1 [m2 [m2' [_ [_ [u [s [vt [_ [S0 _]]]]]] [_ [u' [s' [vt' [_ [S1 _]]]]]] [_ _ [u2 [s2 [vt2 [_ [S2 _]]]]]] _]]]]]].
Qed.

Section Run.
Variables (N C : Type) (norm : ten R -> N) (norm0 : N) (grew : N -> N -> bool) (cb : option (@callback R C)) (force : bool).
Variables (n k : nat) (F : nat -> @factors R) (G : nat -> ten R) (S : nat -> C).
Hypothesis RUN : run norm norm0 grew cb force sweep n k F G S.
Notation sq t := (sumsq r0 r1 r2 (tget 0 (G t))).

Lemma ascent_main : (forall t, (0 < t < k)%N -> sq t <= sq t.+1) /\
  (forall t, (0 < t <= k)%N -> sq t <= sumsq n0 n1 n2 (attended n2 att data)).
Proof.
  case: RUN => _ _ SW _. split.
  - case=> // t /andP[_ Ht]. rewrite (sweep_core (SW t (ltnW Ht))).
    apply: sweep_ascent (SW t.+1 Ht). exact: sweep_orth (SW t (ltnW Ht)).
  - case=> // t Ht. have H := SW t Ht. exact: sweep_bound (sweep_shapes H) H.
Qed.

Lemma full_main : cb = None -> (forall g, grew (norm g) norm0) ->
  (forall g h, sumsq r0 r1 r2 (tget 0 h) <= sumsq r0 r1 r2 (tget 0 g) -> grew (norm g) (norm h)) -> k = n.
Proof.
  move=> E G0 G1. case: RUN => Hk Hn _ D. case: (posnP n) => [E0|/Hn K].
    by apply/eqP; rewrite eqn_leq Hk E0.
  have := D k.-1. rewrite prednK // => /(_ (leqnn k)) [b [Eb _ B]]. have [Hl|//] : (k < k)%N \/ k = n; last by rewrite ltnn in Hl.
  apply: B. move: Eb; rewrite /decision E. case: force => [[]|[_ <-]] //. apply: negbF.
  case: (k) K ascent_main.1 => [|[|t]] //= _ H. apply: G1. by apply: H; rewrite /= ltnSn.
Qed.
End Run.
End Ascent.
