(** Recorded errors: zero exactly when the factors multiply to the target. *)
From Coq Require Import ZArith Lia.
From Verif Require Import Prelude Tensor_model Matrix_model Attention_model LinAlg_model Steps_model.
Set Warnings "-notation-overridden".
From mathcomp Require Import all_ssreflect all_algebra.
From Verif Require Import LinAlg_spec LinAlg_bridge LinAlg_psi Upd_spec Exact_spec Exact_main Exact_final Steps_spec.
Set Implicit Arguments.
Unset Strict Implicit.
Unset Printing Implicit Defensive.
Import Order.TTheory GRing.Theory Num.Theory.
Local Open Scope ring_scope.

Section Rank.
Variable F : fieldType.
Lemma low_rankE m n r (M : 'M[F]_(m, n)) : low_rank r M <-> (\rank M <= r)%N.
Proof.
  split=> [[X [Y ->]]|H].
    apply: leq_trans (mulmx_max_rank _ _) _. exact: leqnn.
  apply: (low_rank_le H). exists (col_base M), (row_base M). by rewrite mulmx_base.
Qed.

Lemma rank_product m k n (t : mat F * list F * mat F) : (\rank (product m k n t : 'M[F]_(m, n)) <= k)%N.
Proof. by apply/low_rankE; exact: product_low. Qed.

Lemma rank_row_l m n1 n2 (M : 'M[F]_(m, n1)) (N : 'M[F]_(m, n2)) : (\rank M <= \rank (row_mx M N))%N.
Proof.
  have {1}-> : M = row_mx M N *m col_mx 1%:M 0 by rewrite mul_row_col mulmx1 mulmx0 addr0.
  exact: mxrankM_maxl.
Qed.
End Rank.

Section Err.
Variable R : realFieldType.
Variables (sqrt : R -> R) (eps : R).
Hypothesis SQ : sqrt_ok sqrt.
Hypothesis EP : 0 < eps.
Notation err := (sqrt_err_relative_mtx (0 : R) +%R *%R (fun x y => x - y) (fun x y => x / y) (fun k => k%:R) sqrt eps).
Notation total := (total_square (0 : R) +%R *%R).

Lemma normsq_ge0 m n (M : 'M[R]_(m, n)) : 0 <= normsq M.
Proof. by apply: sumr_ge0 => i _; apply: sumr_ge0 => j _; exact: sqr_ge0. Qed.

Lemma normsq_eq0 m n (M : 'M[R]_(m, n)) : normsq M = 0 <-> M = 0.
Proof.
  split=> [H|->]; last by rewrite /normsq big1 // => i _; rewrite big1 // => j _; rewrite mxE expr0n.
  apply/matrixP => i j. rewrite mxE. apply/eqP. rewrite -sqrf_eq0.
  have H0 : forall i, 0 <= \sum_j M i j ^+ 2 by move=> ?; apply: sumr_ge0 => ? _; exact: sqr_ge0.
  move/eqP: H. rewrite psumr_eq0 // => /allP /(_ i (mem_index_enum _)) /=.
  by rewrite psumr_eq0 => [/allP /(_ j (mem_index_enum _)) /=|? _]; last exact: sqr_ge0.
Qed.

Lemma total_ok m n a : shape m n a -> total a = normsq (mx m n a).
Proof.
  move=> [Hm Hn]. rewrite /total_square Hm Hn sum_upto_big. apply: eq_bigr => i _.
  rewrite sum_upto_big. apply: eq_bigr => j _. by rewrite mxE expr2.
Qed.

Lemma sqrt_eq0 x : 0 <= x -> sqrt x = 0 <-> x = 0.
Proof. by move/SQ => []. Qed.

Lemma err_value m n a b : shape m n a -> shape m n b ->
  err a b = Ok (if (m * n == 0)%N then None
    else Some (sqrt (normsq (mx m n a - mx m n b) / (m * n)%:R / (normsq (mx m n b) / (m * n)%:R + eps)))).
Proof.
  move=> Ha Hb. rewrite /sqrt_err_relative_mtx. have [e -> [He Ee]] := msub_ok Ha Hb. rewrite /=.
  rewrite /mean_square. case: (He) => -> ->. case: (Hb) => -> ->. rewrite eqb_eqn !multE.
  case: eqP => // _. by rewrite (total_ok He) (total_ok Hb) Ee.
Qed.

Lemma err_zero m n a b : shape m n a -> shape m n b -> (0 < m * n)%N ->
  exists2 e, err a b = Ok (Some e) & 0 <= e /\ (e = 0 <-> mx m n a = mx m n b).
Proof.
  move=> Ha Hb H. rewrite (err_value Ha Hb). rewrite -(negbK (_ == _)) -lt0n H /=. eexists; first by reflexivity.
  set x := _ / _ / _. have D : 0 < normsq (mx m n b) / (m * n)%:R + eps.
    by apply: ltr_spaddr => //; apply: divr_ge0; rewrite ?ler0n ?normsq_ge0.
  have M0 : (0 : R) < (m * n)%:R by rewrite ltr0n.
  have X : 0 <= x by apply: divr_ge0; [apply: divr_ge0; [exact: normsq_ge0|exact: ltW]|exact: ltW].
  split; first by case: (SQ X).
  rewrite sqrt_eq0 //. split=> [/eqP|E].
    rewrite /x !mulf_eq0 !invr_eq0 (gt_eqF D) (gt_eqF M0) !orbF => /eqP /normsq_eq0 /eqP.
    by rewrite subr_eq0 => /eqP.
  rewrite /x E subrr. have -> : normsq (0 : 'M[R]_(m, n)) = 0 by apply/normsq_eq0. by rewrite !mul0r.
Qed.

(** svd2mtx multiplies the factors. *)
Lemma svd2mtx_ok m k n (u : mat R) s vt : shape m k u -> size s = k -> shape k n vt ->
  exists2 a, svd2mtx 0 +%R *%R u s vt = Ok a & shape m n a /\ mx m n a = product m k n (u, s, vt).
Proof.
  move=> Hu Hs Hv. rewrite /svd2mtx /scale_columns. case: (Hu) => E1 E2. rewrite E1 E2 length_size Hs eqb_eqn eqxx /=.
  have HB := shape_build m k (fun i j => mget 0 u i j * List.nth j s 0).
  have [a -> [Ha Ea]] := dot_ok HB Hv. exists a => //. split => //. rewrite Ea mx_build /product /=.
  congr (_ *m _). apply/matrixP => i j. rewrite mul_mx_diag !mxE nth_nth. by [].
Qed.

Notation rec := (record (0 : R) +%R *%R (fun x y => x - y) (fun x y => x / y) (fun k => k%:R) sqrt eps).

Lemma record_ok m k n t target : shape m k t.1.1 -> size t.1.2 = k -> shape k n t.2 -> shape m n target ->
  exists2 e, rec t target = Ok (e, (m, n)) & ((0 < m * n)%N ->
     exists2 x, e = Some x & 0 <= x /\ (x = 0 <-> product m k n t = mx m n target)).
Proof.
  case: t => [[u s] vt] /= Hu Hs Hv Ht. rewrite /record /=.
  have [a -> [Ha Ea]] := svd2mtx_ok Hu Hs Hv. rewrite /=.
  case: (posnP (m * n)) => H.
    rewrite (err_value Ha Ht) H eqxx /=. case: (Ht) => -> ->. by eexists.
  have [x -> Hx] := err_zero Ha Ht H. rewrite /=. case: (Ht) => -> ->. eexists; first by reflexivity.
  move=> _. exists x => //. by rewrite -Ea.
Qed.
End Err.
