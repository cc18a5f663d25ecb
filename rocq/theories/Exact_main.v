(** Truncated updates lose nothing when the target fits in the kept rank. *)
From Verif Require Import Prelude Tensor_model Tensor_spec Matrix_model Attention_model LinAlg_model Hooi_model Upd_model.
Set Warnings "-notation-overridden".
From mathcomp Require Import all_ssreflect all_algebra.
From Verif Require Import LinAlg_spec LinAlg_bridge LinAlg_psi LinAlg_vectors LinAlg_block Tucker_spec Tucker_bridge Tucker_main Hooi_spec Hooi_bridge Hooi_exact Hooi_final Hosvd_main Upd_spec Upd_block Upd_new Exact_spec.
Set Implicit Arguments.
Unset Strict Implicit.
Unset Printing Implicit Defensive.
Import Order.TTheory GRing.Theory Num.Theory.
Local Open Scope ring_scope.

Section Rank.
Variable R : comRingType.

Lemma low_rank_mul m n p q r (K : 'M[R]_(p, m)) (M : 'M[R]_(m, n)) (W : 'M[R]_(n, q)) :
  low_rank r M -> low_rank r (K *m M *m W).
Proof. by case=> X [Y ->]; exists (K *m X), (Y *m W); rewrite !mulmxA. Qed.

Lemma low_rank_tr m n r (M : 'M[R]_(m, n)) : low_rank r M -> low_rank r M^T.
Proof. by case=> X [Y ->]; exists Y^T, X^T; rewrite trmx_mul. Qed.

Lemma product_pad m k n (t : mat R * list R * mat R) : (size t.1.2 <= k)%N -> product m k n t = product m (size t.1.2) n t.
Proof.
  case: t => [[u s] vt] /= H. apply/matrixP => i j. rewrite /product /= !prod3E.
  rewrite [RHS](big_ord_widen k (fun x => mget 0 u i x * nth 0 s x * mget 0 vt x j)) //.
  rewrite [RHS]big_mkcond /=. apply: eq_bigr => x _. case: ltnP => // Hx. by rewrite nth_default // mulr0 mul0r.
Qed.

Lemma lossless_at rsvd p q r (x : mat R) t : lossless rsvd -> rsvd x r = Ok t -> shape p q x -> low_rank r (mx p q x) ->
  product p (size t.1.2) q t = mx p q x.
Proof. by move=> LL E [Hp Hq]; subst p q; exact: LL. Qed.
End Rank.

Section Append.
Variable R : comRingType.
Variables (qr : mat R -> res (mat R * mat R)) (rsvd : mat R -> nat -> res (mat R * list R * mat R)).
Variable exceeds_eps : R -> bool.

Lemma append_vectors_low m r q nc u s vt nv u2 s2 v2t : qr_ok qr -> rsvd_ok rsvd -> lossless rsvd ->
  shape m r u -> sshape r r s -> shape r q vt -> shape m nc nv -> (nc <= m)%N -> (0 < r + nc)%N ->
  (mx m r u)^T *m mx m r u = 1%:M -> mx r q vt *m (mx r q vt)^T = 1%:M ->
  update_svd_new_vectors 0 1 +%R *%R (fun x y => x - y) qr rsvd exceeds_eps u s vt nv = Ok (u2, s2, v2t) ->
  let B := row_mx (mx m r u *m smx r r s *m mx r q vt) (mx m nc nv) in
  low_rank r B -> product m (size s2) (q + nc) (u2, s2, v2t) = B.
Proof.
  move=> QR RS LL Hu Hs Hv Hn L0 L1 Ou Ov E B LB.
  have := update_main exceeds_eps QR RS Hu Hs Hv Hn L0 L1. rewrite E.
  move=> [p [dq [u1 [vt1 [L [W [l [[E2 Hdq _] PR [_ Hl _ _ _] [Eu Ev] [_ [_ [LOW _]]]]]]]]]]].
  have [K EK] := LOW Ou Ov.
  have Q := lossless_at LL E2 Hdq. rewrite EK in Q. have {}Q := Q (low_rank_mul _ _ LB).
  rewrite /product /= Hl in Q *. subst B. rewrite Eu Ev -PR EK -Q. by rewrite !mulmxA.
Qed.

Variable svd : mat R -> res (mat R * list R * mat R).
Variable argsort : list R -> list nat.

Lemma append_block_low m r l n a b u s vt nm u2 s2 v2t : svd_ok svd -> rsvd_ok rsvd -> lossless rsvd ->
  shape m r u -> shape r l s -> shape l n vt -> shape a b nm ->
  (mx m r u)^T *m mx m r u = 1%:M -> mx l n vt *m (mx l n vt)^T = 1%:M ->
  update_svd_new_submatrix 0 +%R *%R svd rsvd argsort u (SMat s) vt nm = Ok (u2, s2, v2t) ->
  let B := block_mx (mx m r u *m mx r l s *m mx l n vt) 0 0 (mx a b nm) in
  low_rank r B -> product (m + a) (size s2) (n + b) (u2, s2, v2t) = B.
Proof.
  move=> SV RS LL Hu Hs Hv Hn Ou Ov E B LB.
  have := update_mat_main argsort SV RS Hu Hs Hv Hn. rewrite E.
  move=> [d [u1 [v1t [L [W [c [[E2 Hd] [_ Hc _] _ EX [_ [_ LOW]]]]]]]]].
  have EK := LOW Ou Ov. rewrite /product /= Hc. apply: EX.
  have Q := lossless_at LL E2 Hd. rewrite EK in Q *. have {}Q := Q (low_rank_mul _ _ LB).
  by rewrite -Q /product /= Hc.
Qed.
End Append.

Section Largest.
Variable R : realFieldType.

Lemma low_rank_zero N r (s : list R) (pos : seq nat) : low_rank r (dg N s) -> uniq pos -> all (fun x => x < N)%N pos ->
  (r < size pos)%N -> has (fun x => nth 0 s x == 0) pos.
Proof.
  move=> LR U A S. apply: contraT => /hasPn NZ.
  have Hp (i : 'I_(size pos)) : (nth 0%N pos i < N)%N by apply: (allP A); apply: mem_nth.
  pose P : 'M[R]_(size pos, N) := \matrix_(i, j) (nth 0%N pos i == j)%:R.
  have PD : P *m dg N s *m P^T = diag_mx (\row_i nth 0 s (nth 0%N pos i)).
    apply/matrixP => i j. rewrite !mxE (bigD1 (Ordinal (Hp j))) //= big1 ?addr0.
      rewrite mul_mx_diag !mxE eqxx mulr1 /= nth_uniq // mulr_natl -val_eqE /=.
      by case: eqP => [->|_] /=; rewrite ?mulr1n ?mulr0n.
    move=> k Hk. rewrite !mxE. have -> : (nth 0%N pos j == k) = false.
      by apply/negbTE; move: Hk; rewrite -val_eqE /= eq_sym.
    by rewrite mulr0.
  have [X [Y E]] := low_rank_mul P P^T LR.
  have RK : (\rank (P *m dg N s *m P^T) <= r)%N by rewrite E (leq_trans (mxrankM_maxl _ _)) ?rank_leq_col.
  have UN : P *m dg N s *m P^T \in unitmx.
    rewrite PD unitmxE det_diag unitfE. apply/prodf_neq0 => i _. rewrite !mxE. apply: NZ. exact: mem_nth.
  by move: RK; rewrite mxrank_unit // leqNgt S.
Qed.

Variables (svd : mat R -> res (mat R * list R * mat R)) (rsvd : mat R -> nat -> res (mat R * list R * mat R)).
Variable argsort : list R -> list nat.

Lemma append_block_largest_low m r n a b u s vt nm u2 s2 v2t : svd_ok svd -> nonneg_svd svd -> argsort_ok (fun x y => x <= y) argsort ->
  shape m r u -> size s = r -> shape r n vt -> shape a b nm -> all (fun y => 0 <= y) s ->
  (mx m r u)^T *m mx m r u = 1%:M -> mx r n vt *m (mx r n vt)^T = 1%:M ->
  update_svd_new_submatrix 0 +%R *%R svd rsvd argsort u (SVec s) vt nm = Ok (u2, s2, v2t) ->
  let B := block_mx (mx m r u *m dg r s *m mx r n vt) 0 0 (mx a b nm) in
  low_rank r B -> size s2 = r /\ product (m + a) r (n + b) (u2, s2, v2t) = B.
Proof.
  move=> SV NN AS Hu Hs Hv Hn PS Ou Ov E B LB.
  have := update_vec_main rsvd SV AS Hu Hs Hv Hn. rewrite E.
  set k := minn a b. set A := _ *m _ *m _.
  move=> [u1 [s1 [v1t [E1 [idx [rest [[_ S2 _] [PI SI KEEP _] _ FULL [EX _ _]]]]]]]].
  split=> //. apply: EX => y Hy.
  have [H1 H2 H3 H4 [O1 O2]] := SV _ _ _ _ E1. rewrite (proj1 Hn) (proj2 Hn) -/k in H1 H2 H3 H4 O1 O2.
  have OU := block_orth Ou O1.
  have OV : block_mx (mx r n vt) 0 0 (mx k b v1t) *m (block_mx (mx r n vt) 0 0 (mx k b v1t))^T = 1%:M.
    by rewrite tr_block_mx !trmx0 !(mulmx_block, mulmx0, mul0mx, addr0, add0r) Ov O2 -scalar_mx_block.
  have LD : low_rank r (dg (r + k) (s ++ s1)).
    have -> : dg (r + k) (s ++ s1) = (block_mx (mx m r u) 0 0 (mx a k u1))^T *m B *m (block_mx (mx r n vt) 0 0 (mx k b v1t))^T.
      by rewrite /B -/A -FULL !mulmxA OU mul1mx -mulmxA OV mulmx1.
    exact: low_rank_mul.
  have UQ : uniq (idx ++ rest) by rewrite (perm_uniq PI) iota_uniq.
  have IN x : x \in idx ++ rest -> (x < r + k)%N by rewrite (perm_mem PI) mem_iota.
  have Hy' : y \in idx ++ rest by rewrite mem_cat Hy orbT.
  have POS x : (0 : R) <= nth 0 (s ++ s1) x.
    have /allP AL : all (fun z => 0 <= z) (s ++ s1) by rewrite all_cat PS /=; exact: NN E1.
    case: (ltnP x (size (s ++ s1))) => Hx; last by rewrite nth_default.
    by apply: AL; exact: mem_nth.
  have /hasP [x Hx /eqP X0] : has (fun x => nth 0 (s ++ s1) x == 0) (y :: idx).
    apply: (low_rank_zero LD) => /=; last by rewrite SI.
    - move: UQ; rewrite cat_uniq => /and3P [-> /hasPn /(_ y Hy) ->] //.
    - rewrite IN //=. apply/allP => x Hx. by rewrite IN // mem_cat Hx.
  apply/eqP. rewrite eq_le POS andbT. move: Hx; rewrite inE => /orP [/eqP <-|Hx]; first by rewrite X0.
  by have := KEEP x y Hx Hy; rewrite /= X0.
Qed.
End Largest.

Section Tucker.
Variable R : comRingType.

Lemma new_vectors_low (qr : mat R -> res (mat R * mat R)) svds rsvd1 rsvd2 exceeds_eps :
  qr_ok qr -> svds_op_ok svds -> truncated_ok rsvd1 -> truncated_ok rsvd2 -> lossless rsvd1 -> lossless rsvd2 ->
  forall explicit mode n a b nn rn na ra nb rb c (fs : @factors R) core nv fs' core',
  modes mode n a b -> factors_at n a b nn rn na ra nb rb fs core -> shape c (na * nb) nv ->
  (0 < rn)%N -> (rn <= na * nb)%N -> (c <= na * nb)%N ->
  orthonormal nn rn (factor fs n) -> orthonormal na ra (factor fs a) -> orthonormal nb rb (factor fs b) ->
  update_tucker_new_vectors (0 : R) 1 +%R *%R (fun x y => x - y) qr svds rsvd1 rsvd2 exceeds_eps explicit fs core nv n
    = Ok (fs', core') ->
  low_rank rn (col_mx (unf n a nn na nb (rep3 fs core)) (mx c (na * nb) nv)) ->
  (forall i y z, (i < nn)%N -> (y < na)%N -> (z < nb)%N ->
     rep3 fs' core' (place n a i y z) = rep3 fs core (place n a i y z)) /\
  (forall i (y : 'I_na) (z : 'I_nb), (i < c)%N ->
     rep3 fs' core' (place n a (nn + i)%N y z)
     = \sum_(y' < na) \sum_(z' < nb)
         mget 0 nv i (y' + na * z')%N * proj na ra (factor fs a) y' y * proj nb rb (factor fs b) z' z).
Proof.
  move=> QR SO T1 T2 L1 L2 explicit mode n a b nn rn na ra nb rb c fs core nv fs' core' M FA Hnv Hp Hr Hc On Oa Ob E LR.
  have H := new_vectors_cells_main QR SO T1 T2 M FA Hnv Hp Hr Hc Oa Ob E.
  case: H => [_ x t Hx Ex Et|p [dq [t [L [W [E2 Hdq LOW _ CELLS]]]]]].
    have [_ Z _ _ _] := T1 _ _ _ Et. rewrite -Ex product_pad; last by rewrite Z geq_minl.
    apply: (lossless_at L1 Et Hx). by exists (mx (na * nb) rn x), 1%:M; rewrite mulmx1.
  apply: CELLS. have [_ Z _ _ _] := T2 _ _ _ E2. rewrite product_pad; last by rewrite Z geq_minl.
  apply: (lossless_at L2 E2 Hdq). have [_ [K ->]] := LOW On. apply: low_rank_mul. apply: low_rank_tr.
  rewrite (rep3_unf M FA) in LR.
  by rewrite trmx_mul trmxK mulmxA.
Qed.

Lemma reversed_rows_proj n r (vt f : mat R) : reversed_rows n r vt f -> proj n r f = (mx r n vt)^T *m mx r n vt.
Proof.
  move=> [_ P]. apply/matrixP => i j. rewrite !mxE [RHS](reindex_inj rev_ord_inj) /=.
  by apply: eq_bigr => y _; rewrite !mxE !P.
Qed.

Lemma unfolding_factor_spans (rsvd : mat R -> nat -> res (mat R * list R * mat R)) n a nn na nb r q (t : cell -> R) f :
  truncated_ok rsvd -> lossless rsvd -> q = minn r (minn (na * nb) nn) ->
  unfolding_factor (fun y => rsvd y r) n a nn na nb q t f -> low_rank r (unf n a nn na nb t) ->
  proj nn q f *m unf n a nn na nb t = unf n a nn na nb t.
Proof.
  move=> T LL Eq [x [u [s [vt [Hx Ex E RR]]]]] LR.
  have [_ Z _ _ OV] := T _ _ _ E. rewrite (proj1 Hx) (proj2 Hx) -Eq /= in Z OV.
  have LX : low_rank r (mx (na * nb) nn x) by rewrite Ex; exact: low_rank_tr.
  have P := lossless_at LL E Hx LX. rewrite /product /= Z in P.
  apply: trmx_inj. rewrite trmx_mul -Ex (reversed_rows_proj RR) trmx_mul trmxK -P.
  by rewrite -!mulmxA (mulmxA (mx q nn vt)) OV mul1mx.
Qed.

Lemma truncated_right (rsvd : nat -> mat R -> nat -> res (mat R * list R * mat R)) :
  (forall t, truncated_ok (rsvd t)) -> right_ok rsvd.
Proof. by move=> T t x r u s vt E; have [_ _ S _ O] := T _ _ _ _ E. Qed.

Lemma hosvd_dense_low (qr : mat R -> res (mat R * mat R)) rand (rsvd : nat -> mat R -> nat -> res (mat R * list R * mat R)) :
  (forall t, truncated_ok (rsvd t)) -> (forall t, lossless (rsvd t)) ->
  forall n0 r0 n1 r1 n2 r2 (x : ten R) fs core, twf x -> tshape x = (n0, n1, n2) ->
  hosvd_dense (0 : R) +%R *%R qr rand rsvd x (r0, r1, r2) = Ok (fs, core) ->
  fits n0 r0 n1 r1 n2 r2 (tget 0 x) ->
  forall c, in_range (n0, n1, n2) c -> rep3 fs core c = tget 0 x c.
Proof.
  move=> T LL n0 r0 n1 r1 n2 r2 x fs core W S E [F0 F1 F2].
  have := hosvd_dense_main qr rand (truncated_right T) r0 r1 r2 W S. rewrite E => -[_ [U0 U1 U2] _ [_ _ EX _]].
  apply: (proj2 EX). split.
  - exact: (unfolding_factor_spans (T 0%N) (LL 0%N) erefl U0).
  - exact: (unfolding_factor_spans (T 1%N) (LL 1%N) erefl U1).
  - exact: (unfolding_factor_spans (T 2%N) (LL 2%N) erefl U2).
Qed.

Lemma tucker2_dense_low (qr : mat R -> res (mat R * mat R)) rand (rsvd : nat -> mat R -> nat -> res (mat R * list R * mat R)) svd_full :
  (forall t, truncated_ok (rsvd t)) -> (forall t, lossless (rsvd t)) -> svd_full_ok svd_full ->
  forall n0 r0 n1 r1 n2 r2 (x : ten R) im fa fb core, twf x -> tshape x = (n0, n1, n2) -> (im < 3)%N ->
  axis (r0, r1, r2) im = axis (n0, n1, n2) im ->
  tucker2_dense (0 : R) 1 +%R *%R qr rand rsvd svd_full x (r0, r1, r2) im = Ok (fa, fb, core) ->
  fits n0 r0 n1 r1 n2 r2 (tget 0 x) ->
  exists u v w,
  [/\ (fa, fb) = (if im is 0 then (v, w) else if im is 1 then (u, w) else (u, v)),
      if im is 0 then mx n0 n0 u = 1%:M else if im is 1 then mx n1 n1 v = 1%:M else mx n2 n2 w = 1%:M
    & forall c, in_range (n0, n1, n2) c -> rep u v w core c = tget 0 x c].
Proof.
  move=> T LL FU n0 r0 n1 r1 n2 r2 x im fa fb core W S Him Eim E [F0 F1 F2].
  have := tucker2_dense_bool_main qr rand (truncated_right T) FU W S Him Eim. rewrite E.
  set valid := [&& _, _ & _]. move=> [u [v [w [EF [U0 U1 U2] _ [_ _ EX _] NV]]]].
  exists u, v, w. split=> //.
    by move: im Him U0 U1 U2 {E Eim EF EX NV} => [|[|[|]]].
  case: valid NV U0 U1 U2 EX => [_|/(_ isT)] // U0 U1 U2 EX.
  apply: (proj2 EX). rewrite /factor /=. split.
  - case: (im == 0%N) U0 => [->|U0]; first by rewrite trmx1 mulmx1 mul1mx.
    exact: (unfolding_factor_spans (T 0%N) (LL 0%N) erefl U0).
  - case: (im == 1%N) U1 => [->|U1]; first by rewrite trmx1 mulmx1 mul1mx.
    exact: (unfolding_factor_spans (T 1%N) (LL 1%N) erefl U1).
  - case: (im == 2%N) U2 => [->|U2]; first by rewrite trmx1 mulmx1 mul1mx.
    exact: (unfolding_factor_spans (T 2%N) (LL 2%N) erefl U2).
Qed.

(** A matrix as an array. *)
Definition arr m n (M : 'M[R]_(m, n)) : mat R :=
  build m n (fun i j => match insub i, insub j with Some i', Some j' => M i' j' | _, _ => 0 end).
Lemma arr_ok m n (M : 'M[R]_(m, n)) : shape m n (arr M) /\ mx m n (arr M) = M.
Proof. by split; rewrite // mx_build; apply/matrixP => i j; rewrite mxE !valK. Qed.

Lemma unf_turn n0 p0 n1 p1 n2 p2 (U : 'M[R]_(n0, p0)) (V : 'M_(n1, p1)) (W : 'M_(n2, p2)) (t : cell -> R) (e : ten R) :
  unf 0 1 n0 n1 n2 t = U *m unf 0 1 p0 p1 p2 (tget 0 e) *m (krn V W)^T ->
  unf 1 0 n1 n0 n2 t = V *m unf 1 0 p1 p0 p2 (tget 0 e) *m (krn U W)^T.
Proof.
  have [HU EU] := arr_ok U. have [HV EV] := arr_ok V. have [HW EW] := arr_ok W.
  rewrite -{1}EU -{1}EV -{1}EW -(rep_unf0 _ HU HV HW) => /unf_inj E.
  rewrite -{1}EU -{1}EV -{1}EW -(rep_unf1 _ HU HV HW). apply: unf_eq => i j k Hi Hj Hk. exact: (E j i k).
Qed.

Lemma new_matrix_low (qr : mat R -> res (mat R * mat R)) rand2 rand3 (rsvd3 rsvd4 : nat -> mat R -> nat -> res (mat R * list R * mat R)) svd_full :
  right_ok rsvd3 -> (forall t, truncated_ok (rsvd4 t)) -> (forall t, lossless (rsvd4 t)) -> svd_full_ok svd_full ->
  forall n0 r0 n1 r1 n2 r2 m0 m1 (u v w : mat R) core inds vals att fs core',
  shape n0 r0 u -> shape n1 r1 v -> shape n2 r2 w -> twf core -> tshape core = (r0, r1, r2) ->
  att_shape n2 att -> length vals = length inds -> List.Forall (in_range (m0, m1, n2)) inds ->
  orthonormal n0 r0 u -> orthonormal n1 r1 v -> orthonormal n2 r2 w ->
  update_tucker_new_matrix (0 : R) 1 +%R *%R qr rand2 rand3 rsvd3 rsvd4 svd_full (u, v, w) core inds vals (m0, m1, n2) att
    = Ok (fs, core') ->
  let T := block_tensor n0 n1 n2 r2 (rep u v w core) (dense (List.combine inds vals)) att w in
  low_rank r0 (unf 0 1 (n0 + m0) (n1 + m1) n2 T) -> low_rank r1 (unf 1 0 (n1 + m1) (n0 + m0) n2 T) ->
  forall c, in_range (n0 + m0, n1 + m1, n2)%N c -> rep3 fs core' c = T c.
Proof.
  move=> R3 T4 LL FU n0 r0 n1 r1 n2 r2 m0 m1 u v w core inds vals att fs core' Hu Hv Hw Wc Sc Ha LV FR Ou Ov Ow E T L0 L1.
  have := new_matrix_main qr rand2 rand3 R3 (truncated_right T4) FU Hu Hv Hw Wc Sc Ha LV FR. rewrite E.
  move=> [[V0 V1 V2] _ _ H].
  have [_ [un [vn [e [f0 [f1 [f2 [[On0 On1] EU [F0 F1 F2] _ EX]]]]]]]] := H Ou Ov Ow.
  have OU := block_orth Ou On0. have OV := block_orth Ov On1.
  have EV := unf_turn EU.
  apply: EX; split.
  - apply: (unfolding_factor_spans (T4 0%N) (LL 0%N) _ F0).
      apply/esym/minn_idPl. rewrite leq_min leq_addr andbT. by apply: leq_trans V0 _; rewrite leq_mul2r leq_addr orbT.
    rewrite (_ : unf 0 1 _ _ _ _ = (block_mx (mx n0 r0 u) 0 0 (mx m0 m0 un))^T *m unf 0 1 (n0 + m0) (n1 + m1) n2 T
              *m krn (block_mx (mx n1 r1 v) 0 0 (mx m1 m1 vn)) (mx n2 r2 w)); first exact: low_rank_mul.
    by rewrite EU !mulmxA OU mul1mx -mulmxA krn_tr krnM OV Ow krn1 mulmx1.
  - apply: (unfolding_factor_spans (T4 1%N) (LL 1%N) _ F1).
      apply/esym/minn_idPl. rewrite leq_min leq_addr andbT. by apply: leq_trans V1 _; rewrite leq_mul2r leq_addr orbT.
    rewrite (_ : unf 1 0 _ _ _ _ = (block_mx (mx n1 r1 v) 0 0 (mx m1 m1 vn))^T *m unf 1 0 (n1 + m1) (n0 + m0) n2 T
              *m krn (block_mx (mx n0 r0 u) 0 0 (mx m0 m0 un)) (mx n2 r2 w)); first exact: low_rank_mul.
    by rewrite EV !mulmxA OV mul1mx -mulmxA krn_tr krnM OU Ow krn1 mulmx1.
  - apply: (unfolding_factor_spans (T4 2%N) (LL 2%N) _ F2).
      apply/esym/rank_min. by apply: leq_trans V2 _; apply: leq_mul; rewrite leq_addr.
    by exists 1%:M, (unf 2 0 r2 (r0 + m0) (r1 + m1) (tget 0 e)); rewrite mul1mx.
Qed.

Lemma coo_unf mode n a b nn na nb (es : list (cell * R)) (x : @coo R) : modes mode n a b ->
  all (fun e => (axis e.1 a < na)%N && (axis e.1 b < nb)%N) es ->
  coo_entries x = [seq ((axis e.1 n, (axis e.1 a + na * axis e.1 b)%N), e.2) | e <- es] ->
  coo_mx nn (na * nb) x = unf n a nn na nb (dense es).
Proof.
  move=> M FR EX. apply/matrixP => i j. rewrite !mxE EX big_map /dense.
  rewrite big_seq_cond [RHS]big_seq_cond. apply: eq_bigl => e. case: (boolP (e \in es)) => // /(allP FR) /andP [Ha Hb]. rewrite !andTb.
  apply/andP/eqP.
  - move=> [/eqP <- /eqP Ej]. have -> : j = lohi (Ordinal Ha) (Ordinal Hb) by apply: val_inj; rewrite /= -Ej.
    by rewrite lo_lohi hi_lohi (pick_place _ M).
  - move=> ->. have [-> -> ->] := place_pick i (lo j) (hi j) M. split=> //.
    by apply/eqP; rewrite -[in RHS](lohiK j).
Qed.

Lemma all_range mode n a b sh inds (vals : list R) : modes mode n a b -> List.Forall (in_range sh) inds ->
  all (fun e => (axis e.1 a < axis sh a)%N && (axis e.1 b < axis sh b)%N) (List.combine inds vals).
Proof.
  move=> M. elim: inds vals => [|c l IH] [|v vals] //= F.
  have Hc := List.Forall_inv F. have Hl := List.Forall_inv_tail F. rewrite IH // andbT.
  move: Hc; rewrite -{1}(pick_place c M) => /(place_range _ _ _ _ M) [_ -> ->]. by [].
Qed.

Lemma sparse_factor_spans svds_u mode n a b nn na nb r sh inds (vals : list R) f : modes mode n a b ->
  svds_ok svds_u -> lossless_left svds_u ->
  axis sh a = na -> axis sh b = nb -> List.Forall (in_range sh) inds ->
  let es := List.combine inds vals in
  sparse_factor svds_u n a b nn na nb r es f -> low_rank r (unf n a nn na nb (dense es)) ->
  proj nn r f *m unf n a nn na nb (dense es) = unf n a nn na nb (dense es).
Proof.
  move=> M SV LL Ea Eb FR es [x [u [E1 E2 E3 E RV]]] LR.
  have EU : coo_mx nn (na * nb) x = unf n a nn na nb (dense es).
    apply: (coo_unf _ M) E3. rewrite -Ea -Eb. exact: all_range M FR.
  have := LL _ _ _ E. rewrite E1 E2 EU => /(_ LR) P.
  rewrite -{2}P. congr (_ *m _). case: RV => _ RV.
  apply/matrixP => i j. rewrite !mxE [RHS](reindex_inj rev_ord_inj) /=.
  by apply: eq_bigr => y _; rewrite !mxE !RV.
Qed.

Lemma hosvd_low (qr : mat R -> res (mat R * mat R)) rand svds_u : svds_ok svds_u -> lossless_left svds_u ->
  forall n0 r0 n1 r1 n2 r2 inds (vals : list R) fs core,
  length vals = length inds -> List.Forall (in_range (n0, n1, n2)) inds ->
  hosvd (0 : R) +%R *%R qr rand svds_u inds vals (n0, n1, n2) (r0, r1, r2) = Ok (fs, core) ->
  fits n0 r0 n1 r1 n2 r2 (dense (List.combine inds vals)) ->
  forall c, in_range (n0, n1, n2) c -> rep3 fs core c = dense (List.combine inds vals) c.
Proof.
  move=> SV LL n0 r0 n1 r1 n2 r2 inds vals fs core LV FR E [F0 F1 F2].
  have := hosvd_main qr rand SV r0 r1 r2 LV FR. rewrite E => -[_ [U0 U1 U2] _ [_ _ EX _]].
  apply: (proj2 EX). split.
  - exact: (sparse_factor_spans mode_0 SV LL erefl erefl FR U0).
  - exact: (sparse_factor_spans mode_1 SV LL erefl erefl FR U1).
  - exact: (sparse_factor_spans mode_2 SV LL erefl erefl FR U2).
Qed.
End Tucker.
