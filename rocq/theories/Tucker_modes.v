(** Mode products seen in the other unfoldings. *)
From Verif Require Import Prelude Prelude_proofs Tensor_model Tensor_spec Matrix_model Attention_model LinAlg_model.
Set Warnings "-notation-overridden".
From mathcomp Require Import all_ssreflect all_algebra.
From Verif Require Import LinAlg_spec LinAlg_bridge Tucker_model Tucker_spec Tucker_bridge.
Set Implicit Arguments.
Unset Strict Implicit.
Unset Printing Implicit Defensive.
Import GRing.Theory.
Local Open Scope ring_scope.

Section Modes.
Variable R : comRingType.

Lemma krn_l na ra nb k (t : 'M[R]_(k, ra * nb)) (M : 'M_(na, ra)) i (y : 'I_(na * nb)) :
  (t *m (krn M (1%:M : 'M_nb))^T) i y = \sum_(x < ra) M (lo y) x * t i (lohi x (hi y)).
Proof.
  rewrite mxE. transitivity (\sum_(z < ra * nb) t i (lohi (lo z) (hi z)) * (M (lo y) (lo z) * (hi y == hi z)%:R)).
    by apply: eq_bigr => z _; rewrite lohiK !mxE.
  rewrite (sum_lohi (fun x x' => t i (lohi x x') * (M (lo y) x * (hi y == x')%:R))).
  apply: eq_bigr => x _. rewrite (bigD1 (hi y)) //= eqxx mulr1 big1 ?addr0 1?mulrC // => x' /negbTE H.
  by rewrite eq_sym H !mulr0.
Qed.

Lemma krn_r na nb rb k (t : 'M[R]_(k, na * rb)) (M : 'M_(nb, rb)) i (y : 'I_(na * nb)) :
  (t *m (krn (1%:M : 'M_na) M)^T) i y = \sum_(x < rb) M (hi y) x * t i (lohi (lo y) x).
Proof.
  rewrite mxE. transitivity (\sum_(z < na * rb) t i (lohi (lo z) (hi z)) * ((lo y == lo z)%:R * M (hi y) (hi z))).
    by apply: eq_bigr => z _; rewrite lohiK !mxE.
  rewrite (sum_lohi (fun x x' => t i (lohi x x') * ((lo y == x)%:R * M (hi y) x'))).
  rewrite (bigD1 (lo y)) //= [X in _ + X]big1 ?addr0.
    by apply: eq_bigr => x _; rewrite eqxx mul1r mulrC.
  by move=> x /negbTE H; apply: big1 => x' _; rewrite eq_sym H mul0r mulr0.
Qed.

Lemma unf_lohi n a nn na nb (t : cell -> R) i (x : 'I_na) (y : 'I_nb) : unf n a nn na nb t i (lohi x y) = t (place n a i x y).
Proof. by rewrite mxE lo_lohi hi_lohi. Qed.

Variables (t t' : cell -> R).
Ltac swp := move=> /matrixP H; apply/matrixP => i y; rewrite ?krn_l ?krn_r mxE.

Lemma swap01 n0 p0 n1 n2 (M : 'M[R]_(p0, n0)) : unf 0 1 p0 n1 n2 t' = M *m unf 0 1 n0 n1 n2 t ->
  unf 1 0 n1 p0 n2 t' = unf 1 0 n1 n0 n2 t *m (krn M 1%:M)^T.
Proof.
  swp. move: (H (lo y) (lohi i (hi y))). rewrite unf_lohi mxE => E. rewrite [LHS]E.
  by apply: eq_bigr => x _; rewrite !unf_lohi.
Qed.
Lemma swap02 n0 p0 n1 n2 (M : 'M[R]_(p0, n0)) : unf 0 1 p0 n1 n2 t' = M *m unf 0 1 n0 n1 n2 t ->
  unf 2 0 n2 p0 n1 t' = unf 2 0 n2 n0 n1 t *m (krn M 1%:M)^T.
Proof.
  swp. move: (H (lo y) (lohi (hi y) i)). rewrite unf_lohi mxE => E. rewrite [LHS]E.
  by apply: eq_bigr => x _; rewrite !unf_lohi.
Qed.
Lemma swap10 n0 n1 p1 n2 (M : 'M[R]_(p1, n1)) : unf 1 0 p1 n0 n2 t' = M *m unf 1 0 n1 n0 n2 t ->
  unf 0 1 n0 p1 n2 t' = unf 0 1 n0 n1 n2 t *m (krn M 1%:M)^T.
Proof.
  swp. move: (H (lo y) (lohi i (hi y))). rewrite unf_lohi mxE => E. rewrite [LHS]E.
  by apply: eq_bigr => x _; rewrite !unf_lohi.
Qed.
Lemma swap12 n0 n1 p1 n2 (M : 'M[R]_(p1, n1)) : unf 1 0 p1 n0 n2 t' = M *m unf 1 0 n1 n0 n2 t ->
  unf 2 0 n2 n0 p1 t' = unf 2 0 n2 n0 n1 t *m (krn 1%:M M)^T.
Proof.
  swp. move: (H (hi y) (lohi (lo y) i)). rewrite unf_lohi mxE => E. rewrite [LHS]E.
  by apply: eq_bigr => x _; rewrite !unf_lohi.
Qed.
Lemma swap20 n0 n1 n2 p2 (M : 'M[R]_(p2, n2)) : unf 2 0 p2 n0 n1 t' = M *m unf 2 0 n2 n0 n1 t ->
  unf 0 1 n0 n1 p2 t' = unf 0 1 n0 n1 n2 t *m (krn 1%:M M)^T.
Proof.
  swp. move: (H (hi y) (lohi i (lo y))). rewrite unf_lohi mxE => E. rewrite [LHS]E.
  by apply: eq_bigr => x _; rewrite !unf_lohi.
Qed.
Lemma swap21 n0 n1 n2 p2 (M : 'M[R]_(p2, n2)) : unf 2 0 p2 n0 n1 t' = M *m unf 2 0 n2 n0 n1 t ->
  unf 1 0 n1 n0 p2 t' = unf 1 0 n1 n0 n2 t *m (krn 1%:M M)^T.
Proof.
  swp. move: (H (hi y) (lohi (lo y) i)). rewrite unf_lohi mxE => E. rewrite [LHS]E.
  by apply: eq_bigr => x _; rewrite !unf_lohi.
Qed.
End Modes.
