(** Ranks of restrictions of a tensor, and factors that span a tensor extending a full-rank
    one. *)
From Coq Require Import ZArith.
From Verif Require Import Prelude Tensor_model Tensor_spec Tensor_main Matrix_model LinAlg_model.
Set Warnings "-notation-overridden".
From mathcomp Require Import all_ssreflect all_algebra.
From Verif Require Import LinAlg_spec LinAlg_bridge Tucker_spec Tucker_bridge Upd_spec Exact_spec Exact_main.
Set Implicit Arguments.
Unset Strict Implicit.
Unset Printing Implicit Defensive.
Import GRing.Theory.
Local Open Scope ring_scope.

Section Rank.
Variable F : fieldType.

Lemma sel_rows m m' n (f : 'I_m -> 'I_m') (M : 'M[F]_(m', n)) i j :
  ((\matrix_(i, k) (k == f i)%:R) *m M) i j = M (f i) j.
Proof.
  rewrite mxE (bigD1 (f i)) //= mxE eqxx mul1r big1 ?addr0 // => k /negbTE H. by rewrite mxE H mul0r.
Qed.
Lemma sel_cols m n n' (g : 'I_n -> 'I_n') (M : 'M[F]_(m, n')) i j :
  (M *m (\matrix_(k, j) (k == g j)%:R)) i j = M i (g j).
Proof.
  rewrite mxE (bigD1 (g j)) //= mxE eqxx mulr1 big1 ?addr0 // => k /negbTE H. by rewrite mxE H mulr0.
Qed.

Lemma rank_sel m n m' n' (f : 'I_m -> 'I_m') (g : 'I_n -> 'I_n') (M : 'M[F]_(m', n')) :
  (\rank (\matrix_(i, j) M (f i) (g j)) <= \rank M)%N.
Proof.
  have -> : \matrix_(i, j) M (f i) (g j)
      = (\matrix_(i, k) (k == f i)%:R) *m (M *m (\matrix_(k, j) (k == g j)%:R)) :> 'M_(m, n).
    apply/matrixP => i j. by rewrite sel_rows sel_cols mxE.
  apply: leq_trans (mxrankM_maxr _ _) _. exact: mxrankM_maxl.
Qed.

Lemma unf_widen n a nn na nb nn' na' nb' (t : cell -> F) (H0 : (nn <= nn')%N) (H1 : (na <= na')%N) (H2 : (nb <= nb')%N) :
  unf n a nn na nb t
  = \matrix_(i, j) unf n a nn' na' nb' t (widen_ord H0 i) (lohi (widen_ord H1 (lo j)) (widen_ord H2 (hi j))).
Proof. apply/matrixP => i j. by rewrite !mxE lo_lohi hi_lohi. Qed.

Lemma rank_unf n a nn na nb nn' na' nb' (t : cell -> F) : (nn <= nn')%N -> (na <= na')%N -> (nb <= nb')%N ->
  (\rank (unf n a nn na nb t) <= \rank (unf n a nn' na' nb' t))%N.
Proof. move=> H0 H1 H2. rewrite (unf_widen _ _ _ H0 H1 H2). exact: rank_sel. Qed.

Lemma unf_eq n a nn na nb (t t' : cell -> F) :
  (forall x y z, (x < nn)%N -> (y < na)%N -> (z < nb)%N -> t (place n a x y z) = t' (place n a x y z)) ->
  unf n a nn na nb t = unf n a nn na nb t'.
Proof. move=> H. apply/matrixP => i j. rewrite !mxE. exact: H. Qed.

(** Orthonormal columns [f] that span a matrix of full rank span every extension of it of the
    same rank. *)
Lemma full_span nn r p q (f : 'M[F]_(nn, r)) (M : 'M_(nn, p)) (M' : 'M_(nn, q)) X Y :
  f^T *m f = 1%:M -> M = f *m X -> M = M' *m Y -> \rank M = r -> (\rank M' <= r)%N -> f *m f^T *m M' = M'.
Proof.
  move=> O E1 E2 RM RM'.
  have S1 : (M^T <= f^T)%MS by rewrite E1 trmx_mul submxMl.
  have S2 : (M^T <= M'^T)%MS by rewrite E2 trmx_mul submxMl.
  have S3 : (M'^T <= M^T)%MS by rewrite -(geq_leqif (mxrank_leqif_sup S2)) !mxrank_tr RM.
  have /submxP [D E] := submx_trans S3 S1. have -> : M' = f *m D^T by apply: trmx_inj; rewrite E trmx_mul trmxK.
  by rewrite -!mulmxA (mulmxA f^T) O mul1mx.
Qed.

Lemma unf_cols n a nn na nb na' nb' (t : cell -> F) : (na <= na')%N -> (nb <= nb')%N ->
  exists Y, unf n a nn na nb t = unf n a nn na' nb' t *m Y.
Proof.
  move=> H1 H2. exists (\matrix_(k, j) (k == lohi (widen_ord H1 (lo j)) (widen_ord H2 (hi j)))%:R).
  apply/matrixP => i j. by rewrite sel_cols !mxE lo_lohi hi_lohi.
Qed.
End Rank.
