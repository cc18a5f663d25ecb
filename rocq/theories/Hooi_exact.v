(** Orthonormal factors and the core of a tensor: the represented tensor is the projection. *)
From Verif Require Import Prelude Tensor_model Tensor_spec Matrix_model Attention_model LinAlg_model Hooi_model.
Set Warnings "-notation-overridden".
From mathcomp Require Import all_ssreflect all_algebra.
From Verif Require Import LinAlg_spec LinAlg_bridge Tucker_spec Tucker_bridge Tucker_modes Tucker_main Tucker_integ Hooi_spec.
Set Implicit Arguments.
Unset Strict Implicit.
Unset Printing Implicit Defensive.
Import GRing.Theory.
Local Open Scope ring_scope.

Section Exact.
Variable R : comRingType.

Lemma core_of_att n0 r0 n1 r1 n2 r2 (data : cell -> R) (U : 'M_(n0, r0)) (V : 'M_(n1, r1)) (w : mat R) att core :
  core_of data U V (mx n2 n2 att *m mx n2 r2 w) core -> core_of (attended n2 att data) U V (mx n2 r2 w) core.
Proof.
  move=> [W S E]. split=> // a b c. rewrite E. apply: eq_bigr => i _; apply: eq_bigr => j _.
  rewrite (eq_bigr (fun k : 'I_n2 => \sum_(l < n2) data (i : nat, j : nat, k : nat) * U i a * V j b * (mx n2 n2 att k l * mx n2 r2 w l c)));
    last by move=> k _; rewrite mxE big_distrr.
  rewrite exchange_big /=. apply: eq_bigr => l _. rewrite /attended /c0 /c1 /c2 /= !big_distrl /=.
  apply: eq_bigr => k _. rewrite !mulrA [in RHS]mxE [in LHS]mxE. rewrite [mx n2 r2 w l c]mxE. congr (_ * _).
  by rewrite mulrC !mulrA.
Qed.

Lemma sumsq_tr n0 n1 n2 (t : cell -> R) : sumsq n0 n1 n2 t = \tr (unf 0 1 n0 n1 n2 t *m (unf 0 1 n0 n1 n2 t)^T).
Proof.
  rewrite /sumsq /mxtrace. apply: eq_bigr => i _. rewrite mxE.
  rewrite -(sum_lohi (fun (j : 'I_n1) (k : 'I_n2) => t (i : nat, j : nat, k : nat) ^+ 2)).
  by apply: eq_bigr => y _; rewrite !mxE expr2.
Qed.

Section Proj.
Variables (n0 r0 n1 r1 n2 r2 : nat) (u v w : mat R) (core : ten R) (t : cell -> R).
Notation U := (mx n0 r0 u). Notation V := (mx n1 r1 v). Notation W := (mx n2 r2 w).
Hypotheses (Hu : shape n0 r0 u) (Hv : shape n1 r1 v) (Hw : shape n2 r2 w).
Hypotheses (Ou : orthonormal n0 r0 u) (Ov : orthonormal n1 r1 v) (Ow : orthonormal n2 r2 w).
Hypothesis CORE : core_of t U V W core.
Notation T := (unf 0 1 n0 n1 n2 t).
Notation K := (krn V W).
Notation C := (unf 0 1 r0 r1 r2 (tget 0 core)).

Lemma C_eq : C = U^T *m T *m K.
Proof. case: CORE => _ _ E. exact: core_unf. Qed.
Lemma K_orth : K^T *m K = 1%:M.
Proof. by rewrite krn_tr krnM Ov Ow krn1. Qed.
Lemma rep_T : unf 0 1 n0 n1 n2 (rep u v w core) = U *m U^T *m T *m K *m K^T.
Proof. by rewrite (rep_unf0 core Hu Hv Hw) C_eq !mulmxA. Qed.

Lemma rep_proj_main (i : 'I_n0) (j : 'I_n1) (k : 'I_n2) :
  rep u v w core (i : nat, j : nat, k : nat)
  = \sum_(a < n0) \sum_(b < n1) \sum_(c < n2)
      t (a : nat, b : nat, c : nat) * (U *m U^T) i a * (V *m V^T) j b * (W *m W^T) k c.
Proof.
  have := congr1 (fun M : 'M[R]_(n0, n1 * n2) => M i (lohi j k)) rep_T. rewrite /= unf_lohi /place /= => ->.
  rewrite -mulmxA krn_tr krnM -mulmxA mxE. apply: eq_bigr => a _.
  rewrite [X in _ * X = _]mxE -(sum_lohi (fun (b : 'I_n1) (c : 'I_n2) => t (a : nat, b : nat, c : nat) * (U *m U^T) i a * (V *m V^T) j b * (W *m W^T) k c)).
  rewrite big_distrr /=. apply: eq_bigr => y _. rewrite [X in _ * (X * _)]mxE [X in _ * (_ * X)]mxE lo_lohi hi_lohi /place /=.
  have S n r (M : 'M[R]_(n, r)) x z : (M *m M^T) x z = (M *m M^T) z x by rewrite -[M *m M^T in RHS]trmxK [RHS]mxE trmx_mul trmxK.
  rewrite (S _ _ V) (S _ _ W) -!mulrA. by rewrite [RHS]mulrCA.
Qed.

Lemma rep_exact_main :
  (forall c, in_range (n0, n1, n2) c -> rep u v w core c = t c) <->
  [/\ U *m U^T *m unf 0 1 n0 n1 n2 t = unf 0 1 n0 n1 n2 t,
      V *m V^T *m unf 1 0 n1 n0 n2 t = unf 1 0 n1 n0 n2 t
    & W *m W^T *m unf 2 0 n2 n0 n1 t = unf 2 0 n2 n0 n1 t].
Proof.
  split.
  - move=> E.
    have E0 : unf 0 1 n0 n1 n2 (rep u v w core) = unf 0 1 n0 n1 n2 t.
      by apply: unf_eq => i x y /ltP ? /ltP ? /ltP ?; apply: E.
    have E1 : unf 1 0 n1 n0 n2 (rep u v w core) = unf 1 0 n1 n0 n2 t.
      by apply: unf_eq => i x y /ltP ? /ltP ? /ltP ?; apply: E.
    have E2 : unf 2 0 n2 n0 n1 (rep u v w core) = unf 2 0 n2 n0 n1 t.
      by apply: unf_eq => i x y /ltP ? /ltP ? /ltP ?; apply: E.
    rewrite -E0 -E1 -E2 (rep_unf0 core Hu Hv Hw) (rep_unf1 core Hu Hv Hw) (rep_unf2 core Hu Hv Hw).
    split; rewrite !mulmxA -[_ *m _ *m mx _ _ _]mulmxA ?Ou ?Ov ?Ow mulmx1 //.
  - move=> [E0 E1 E2].
    have F1 : T *m (krn (V *m V^T) 1%:M)^T = T by rewrite -(swap10 (t' := t) (esym E1)).
    have F2 : T *m (krn 1%:M (W *m W^T))^T = T by rewrite -(swap20 (t' := t) (esym E2)).
    have F : unf 0 1 n0 n1 n2 (rep u v w core) = T.
      rewrite rep_T E0 -mulmxA krn_tr krnM -[RHS]F1 -[in RHS]F2 -mulmxA !krn_tr krnM.
      by rewrite !trmx_mul !trmxK !trmx1 mul1mx mulmx1.
    move=> [[i j] k] [/ltP Hi [/ltP Hj /ltP Hk]].
    have := congr1 (fun M : 'M[R]_(n0, n1 * n2) => M (Ordinal Hi) (lohi (Ordinal Hj) (Ordinal Hk))) F.
    by rewrite /= !unf_lohi.
Qed.

Lemma pythagoras_main :
  sumsq n0 n1 n2 t = sumsq r0 r1 r2 (tget 0 core) + sumsq n0 n1 n2 (fun c => t c - rep u v w core c).
Proof.
  rewrite !sumsq_tr.
  have -> : unf 0 1 n0 n1 n2 (fun c => t c - rep u v w core c) = T - U *m C *m K^T.
    by rewrite -(rep_unf0 core Hu Hv Hw); apply/matrixP => i y; rewrite !mxE.
  set P := U *m C *m K^T.
  have PP : \tr (P *m P^T) = \tr (C *m C^T).
    rewrite /P !trmx_mul trmxK mxtrace_mulC !mulmxA -[_ *m U^T *m U]mulmxA Ou mulmx1 mxtrace_mulC !mulmxA.
    by rewrite K_orth mul1mx mxtrace_mulC.
  have PT : \tr (P *m T^T) = \tr (C *m C^T).
    have -> : C^T = K^T *m T^T *m U by rewrite C_eq !trmx_mul trmxK mulmxA.
    by rewrite /P -!mulmxA mxtrace_mulC !mulmxA.
  have TP : \tr (T *m P^T) = \tr (C *m C^T) by rewrite -PT -mxtrace_tr trmx_mul trmxK.
  rewrite linearB /= mulmxBl !mulmxBr !raddfB /= PP PT TP subrr addr0.
  by rewrite addrC subrK.
Qed.
End Proj.
End Exact.
