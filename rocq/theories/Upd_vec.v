(** Proofs for update_tucker_new_vectors: Kronecker products, the linear operator, the
    first SVD. *)
From Verif Require Import Prelude Tensor_model Tensor_spec Matrix_model Attention_model LinAlg_model Hooi_model Upd_model.
Set Warnings "-notation-overridden".
From mathcomp Require Import all_ssreflect all_algebra.
From Verif Require Import LinAlg_spec LinAlg_bridge Tucker_spec Tucker_bridge Hooi_spec Hooi_bridge Upd_spec.
Set Implicit Arguments.
Unset Strict Implicit.
Unset Printing Implicit Defensive.
Import GRing.Theory.
Local Open Scope ring_scope.

Lemma divE (i d : nat) : (0 < d)%N -> Nat.div i d = (i %/ d)%N.
Proof.
  move=> Hd. symmetry. apply: (PeanoNat.Nat.div_unique i d (i %/ d)%N (i %% d)%N).
    by apply/ltP; rewrite ltn_mod.
  by rewrite multE plusE mulnC -divn_eq.
Qed.
Lemma modE (i d : nat) : (0 < d)%N -> Nat.modulo i d = (i %% d)%N.
Proof.
  move=> Hd. symmetry. apply: (PeanoNat.Nat.mod_unique i d (i %/ d)%N (i %% d)%N).
    by apply/ltP; rewrite ltn_mod.
  by rewrite multE plusE mulnC -divn_eq.
Qed.
Lemma pos_ord na nb (y : 'I_(na * nb)) : (0 < na)%N.
Proof. by case: na y => // -[]. Qed.

Section Kron.
Variable R : comRingType.
Notation mget := (Tensor_model.mget (0 : R)).

Lemma kron_ok ma na mb nb (x y : mat R) : shape ma na x -> shape mb nb y ->
  shape (mb * ma) (nb * na) (np_kron 0 *%R x y) /\ mx (mb * ma) (nb * na) (np_kron 0 *%R x y) = krn (mx mb nb y) (mx ma na x).
Proof.
  move=> [<- <-] [<- <-]. split; first by rewrite /shape /np_kron /= !multE !(mulnC (mr y)) !(mulnC (mc y)).
  apply/matrixP => i j. rewrite /np_kron !mxE build_mget /=; last 2 first.
  - by rewrite multE; apply: leq_trans (ltn_ord i) _; rewrite mulnC.
  - by rewrite multE; apply: leq_trans (ltn_ord j) _; rewrite mulnC.
  by rewrite !divE ?modE ?(pos_ord i) ?(pos_ord j) // mulrC.
Qed.

Definition vec m n (x : 'M[R]_(m, n)) : 'cV[R]_(m * n) := \col_y x (lo y) (hi y).
Lemma vec_mul m k n l (a : 'M[R]_(m, k)) (x : 'M_(k, l)) (b : 'M_(n, l)) :
  vec (a *m x *m b^T) = krn a b *m vec x.
Proof.
  apply/matrixP => y z. rewrite !mxE.
  transitivity (\sum_(j < l) \sum_(i < k) a (lo y) i * b (hi y) j * x i j).
    apply: eq_bigr => j _. rewrite !mxE big_distrl /=. apply: eq_bigr => i _. by rewrite mulrAC.
  rewrite exchange_big /= -(sum_lohi (fun i j => a (lo y) i * b (hi y) j * x i j)).
  by apply: eq_bigr => t _; rewrite !mxE.
Qed.

Lemma reshape_ok (v : list R) m n : size v = (m * n)%N ->
  exists2 x, reshape_f 0 v m n = Ok x & shape m n x /\ vec (mx m n x) = column (m * n) v.
Proof.
  move=> S. rewrite /reshape_f length_size S eqb_eqn ?multE eqxx. eexists; first by []. split=> //.
  apply/matrixP => y z. rewrite !mxE build_mget // nth_nth ?multE ?plusE. congr nth.
  by rewrite addnC mulnC; exact: (congr1 val (lohiK y)).
Qed.

Lemma flatten_ok m n (x : mat R) : shape m n x ->
  size (flatten_f 0 x) = (m * n)%N /\ column (m * n) (flatten_f 0 x) = vec (mx m n x).
Proof.
  move=> [<- <-]. rewrite /flatten_f multE seq_iota. split.
    by rewrite -length_size List.map_length length_size size_iota.
  apply/matrixP => y z. rewrite !mxE -nth_nth.
  rewrite (List.nth_indep _ 0 (mget x (Nat.modulo 0 (mr x)) (Nat.div 0 (mr x)))); last first.
    by apply/ltP; rewrite List.map_length length_size size_iota.
  by rewrite (List.map_nth (fun y => mget x (Nat.modulo y (mr x)) (Nat.div y (mr x)))) nth_nth nth_iota // add0n modE ?divE ?(pos_ord y).
Qed.

Lemma matvec_ok m n (x : mat R) (v : list R) : shape m n x -> size v = n ->
  exists2 w, matvec 0 +%R *%R x v = Ok w & size w = m /\ column m w = mx m n x *m column n v.
Proof.
  move=> [<- <-] S. rewrite /matvec length_size S eqb_eqn eqxx. eexists; first by []. split.
    by rewrite -length_size List.map_length seq_iota length_size size_iota.
  apply/matrixP => i z. rewrite !mxE -nth_nth.
  rewrite (List.nth_indep _ 0 ((fun i => sum_upto 0 +%R (mc x) (fun k => mget x i k * List.nth k v 0)) 0%N)); last first.
    by apply/ltP; rewrite List.map_length seq_iota length_size size_iota.
  rewrite List.map_nth nth_nth seq_iota nth_iota // add0n sum_upto_big. apply: eq_bigr => k _. by rewrite !mxE nth_nth.
Qed.

Lemma kron_op_ok rn na ra nb rb (c lf rf : mat R) :
  shape rn (ra * rb) c -> shape na ra rf -> shape nb rb lf ->
  op_is (krn (mx na ra rf) (mx nb rb lf) *m (mx rn (ra * rb) c)^T) (kron_op 0 +%R *%R c lf rf rn).
Proof.
  move=> Hc Hr Hl. have [Hct Ect] := transpose_ok Hc. have [Hlt Elt] := transpose_ok Hl. have [Hrt Ert] := transpose_ok Hr.
  split=> /=; [by rewrite (proj1 Hr) (proj1 Hl)|by []| |] => v Sv.
  - rewrite /kron_mv. have [cv -> [Sc Ec]] := matvec_ok Hct Sv. rewrite /= (proj2 Hr) (proj2 Hl).
    have [m -> [Sm Em]] := reshape_ok Sc. rewrite /=.
    have [p -> [Sp Ep]] := dot_ok Hr Sm. rewrite /=. have [q -> [Sq Eq]] := dot_ok Sp Hlt. rewrite /=.
    have [S F] := flatten_ok Sq. eexists; first by []. split=> //. by rewrite F Eq Ep Elt vec_mul Em Ec Ect mulmxA.
  - rewrite /kron_rmv (proj1 Hr) (proj1 Hl). have [m -> [Sm Em]] := reshape_ok Sv. rewrite /=.
    have [p -> [Sp Ep]] := dot_ok Hrt Sm. rewrite /=. have [q -> [Sq Eq]] := dot_ok Sp Hl. rewrite /=.
    have [S F] := flatten_ok Sq. have [w -> [Sw Ew]] := matvec_ok Hc S. exists w => //. split=> //.
    by rewrite Ew F Eq Ep Ert -{1}[mx nb rb lf]trmxK vec_mul Em trmx_mul trmxK krn_tr mulmxA.
Qed.
End Kron.

Section Svd.
Variable R : comRingType.
Variable svds : linop R -> nat -> res (mat R * list R * mat R).
Variable rsvd1 : mat R -> nat -> res (mat R * list R * mat R).
Hypotheses (SVDS : svds_op_ok svds) (TR : truncated_ok rsvd1).
Notation mget := (Tensor_model.mget (0 : R)).

Lemma reverse_rows_ok m n (x : mat R) : shape m n x ->
  shape m n (reverse_rows 0 x) /\ mx m n (reverse_rows 0 x) = \matrix_(i, j) mx m n x (rev_ord i) j.
Proof.
  move=> [<- <-]. split=> //. apply/matrixP => i j. rewrite /reverse_rows !mxE build_mget //. 
  by rewrite !minusE -subnDA add1n.
Qed.
Lemma dg_rev k (s : list R) : size s = k -> dg k (List.rev s) = \matrix_(i, j) dg k s (rev_ord i) (rev_ord j).
Proof.
  move=> S. apply/matrixP => i j. rewrite !mxE rev_rev (inj_eq rev_ord_inj). case: eqP => // -> /=. by rewrite nth_rev S.
Qed.

(** The first SVD: [l] singular triples of the matrix [Y]. *)
Lemma first_svd_ok explicit rn na ra nb rb (c lf rf : mat R) :
  shape rn (ra * rb) c -> shape na ra rf -> shape nb rb lf -> (rn <= na * nb)%N ->
  let Y := krn (mx na ra rf) (mx nb rb lf) *m (mx rn (ra * rb) c)^T in
  let w_v := np_kron 0 *%R (transpose 0 lf) (transpose 0 rf) in
  match unfolding_svd 0 +%R *%R svds rsvd1 explicit c w_v lf rf rn with
  | Err e => (exists op k, svds op k = Err e) \/ (exists x r, rsvd1 x r = Err e)
  | Ok (v1t, s1, u1) =>
    [/\ shape rn (na * nb) v1t, size s1 = rn, shape rn rn u1,
        mx rn (na * nb) v1t *m (mx rn (na * nb) v1t)^T = 1%:M
      & (mx rn rn u1)^T *m mx rn rn u1 = 1%:M] /\
    if explicit
    then exists x t, [/\ shape (na * nb) rn x, mx (na * nb) rn x = Y, rsvd1 x rn = Ok t
                      & (mx rn (na * nb) v1t)^T *m dg rn s1 *m (mx rn rn u1)^T = product (na * nb) rn rn t]
    else (mx rn (na * nb) v1t)^T *m dg rn s1 *m (mx rn rn u1)^T = Y
  end.
Proof.
  move=> Hc Hr Hl L Y w_v. have [Hlt Elt] := transpose_ok Hl. have [Hrt Ert] := transpose_ok Hr.
  rewrite /unfolding_svd. case: explicit.
  - have [Hw Ew] := kron_ok Hlt Hrt. rewrite -/w_v in Hw Ew. have [x -> [Hx Ex]] := dot_ok Hc Hw. rewrite /=.
    have [Hxt Ext] := transpose_ok Hx. case E : (rsvd1 _ rn) => [[[v s] u]|e] /=; last by right; exists (transpose 0 x), rn.
    have := TR E. rewrite (proj1 Hxt) (proj2 Hxt) (minn_idPr L) minnn /= => -[/= Hv Hs Hu Ov Ou].
    have [Hvt Evt] := transpose_ok Hv. have [Hut Eut] := transpose_ok Hu. split; first split=> //.
    + by rewrite Evt trmxK.
    + by rewrite Eut trmxK.
    exists (transpose 0 x), (v, s, u). split=> //; first by rewrite Ext Ex Ew Ert Elt -krn_tr trmx_mul trmxK.
    by rewrite Evt Eut !trmxK.
  - have OP := kron_op_ok Hc Hr Hl. case E : (svds _ rn) => [[[v s] u]|e] /=; last by left; exists (kron_op 0 +%R *%R c lf rf rn), rn.
    have [_ [/= Hv Hs Hu Ov Ou]] := SVDS OP E. rewrite (minn_idPr L) => /(_ erefl) P.
    have Rv := reverse_ok Hv. have [Hv' _] := Rv. have Ev := rev_perm Rv. have [Hu' Eu'] := reverse_rows_ok Hu.
    have [Hvt Evt] := transpose_ok Hv'. have [Hut Eut] := transpose_ok Hu'. rewrite Evt Eut Ev Eu' !trmxK.
    split; first split=> //.
    + by rewrite rev_rev size_rev.
    + apply/matrixP => i j. have := congr1 (fun M : 'M[R]_rn => M (rev_ord i) (rev_ord j)) Ov.
      rewrite !mxE (inj_eq rev_ord_inj) => <-. by apply: eq_bigr => t _; rewrite !mxE.
    + apply/matrixP => i j. have := congr1 (fun M : 'M[R]_rn => M (rev_ord i) (rev_ord j)) Ou.
      rewrite !mxE (inj_eq rev_ord_inj) => <-. by apply: eq_bigr => t _; rewrite !mxE.
    rewrite /Y -P dg_rev //. apply/matrixP => i j. rewrite /product !mxE (reindex_inj rev_ord_inj) /=.
    apply: eq_bigr => t _. rewrite !mxE !rev_ordK. congr (_ * _).
    rewrite (reindex_inj rev_ord_inj) /=. by apply: eq_bigr => t' _; rewrite !mxE !rev_ordK.
Qed.
End Svd.
