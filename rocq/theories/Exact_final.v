(** Exactness of the truncated updates is equivalent to the target fitting in the rank. *)
From Verif Require Import Prelude Tensor_model Tensor_spec Matrix_model Attention_model LinAlg_model Hooi_model Upd_model.
Set Warnings "-notation-overridden".
From mathcomp Require Import all_ssreflect all_algebra.
From Verif Require Import LinAlg_spec LinAlg_bridge LinAlg_psi LinAlg_vectors LinAlg_block Tucker_spec Tucker_bridge Tucker_main Hooi_spec Hooi_bridge Hooi_exact Hooi_final Hosvd_main Upd_spec Upd_block Upd_new Exact_spec Exact_main.
Set Implicit Arguments.
Unset Strict Implicit.
Unset Printing Implicit Defensive.
Import GRing.Theory Num.Theory.
Local Open Scope ring_scope.

Section Back.
Variable R : comRingType.

Lemma low_rank_le m n l r (M : 'M[R]_(m, n)) : (l <= r)%N -> low_rank l M -> low_rank r M.
Proof.
  move=> H [X [Y ->]]. rewrite -(subnKC H). exists (row_mx X 0), (col_mx Y 0).
  by rewrite mul_row_col mulmx0 addr0.
Qed.

Lemma product_low m l n r t : (l <= r)%N -> low_rank r (product m l n t : 'M[R]_(m, n)).
Proof. move=> H. apply: (low_rank_le H). by eexists; eexists. Qed.

Lemma truncated_rsvd_ok (rsvd : mat R -> nat -> res (mat R * list R * mat R)) : truncated_ok rsvd -> rsvd_ok rsvd.
Proof. by move=> T x rank u s vt E; have [? ? ? _ _] := T _ _ _ E; eexists; split; eauto. Qed.

Lemma rep3_low n0 r0 n1 r1 n2 r2 fs (core : ten R) (t : cell -> R) k0 k1 k2 :
  shape n0 k0 (factor fs 0) -> shape n1 k1 (factor fs 1) -> shape n2 k2 (factor fs 2) ->
  (k0 <= r0)%N -> (k1 <= r1)%N -> (k2 <= r2)%N ->
  (forall c, in_range (n0, n1, n2) c -> rep3 fs core c = t c) -> fits n0 r0 n1 r1 n2 r2 t.
Proof.
  move=> H0 H1 H2 L0 L1 L2 E.
  have E' i j k : (i < n0)%N -> (j < n1)%N -> (k < n2)%N -> rep3 fs core (i, j, k) = t (i, j, k).
    move=> Hi Hj Hk. apply: E. exact: (conj (elimT ltP Hi) (conj (elimT ltP Hj) (elimT ltP Hk))).
  have U0 : unf 0 1 n0 n1 n2 t = unf 0 1 n0 n1 n2 (rep3 fs core) by apply: unf_eq => i j k Hi Hj Hk; rewrite E'.
  have U1 : unf 1 0 n1 n0 n2 t = unf 1 0 n1 n0 n2 (rep3 fs core) by apply: unf_eq => i j k Hi Hj Hk; rewrite E'.
  have U2 : unf 2 0 n2 n0 n1 t = unf 2 0 n2 n0 n1 (rep3 fs core) by apply: unf_eq => i j k Hi Hj Hk; rewrite E'.
  rewrite /rep3 in U0 U1 U2. split.
  - rewrite U0 (rep_unf0 _ H0 H1 H2) -mulmxA. apply: (low_rank_le L0). by eexists; eexists.
  - rewrite U1 (rep_unf1 _ H0 H1 H2) -mulmxA. apply: (low_rank_le L1). by eexists; eexists.
  - rewrite U2 (rep_unf2 _ H0 H1 H2) -mulmxA. apply: (low_rank_le L2). by eexists; eexists.
Qed.
End Back.

Section Append.
Variable R : comRingType.
Variables (qr : mat R -> res (mat R * mat R)) (rsvd : mat R -> nat -> res (mat R * list R * mat R)).
Variable exceeds_eps : R -> bool.

Lemma append_vectors_iff m r q nc u s vt nv u2 s2 v2t : qr_ok qr -> truncated_ok rsvd -> lossless rsvd ->
  shape m r u -> sshape r r s -> shape r q vt -> shape m nc nv -> (nc <= m)%N -> (0 < r + nc)%N ->
  (mx m r u)^T *m mx m r u = 1%:M -> mx r q vt *m (mx r q vt)^T = 1%:M ->
  update_svd_new_vectors 0 1 +%R *%R (fun x y => x - y) qr rsvd exceeds_eps u s vt nv = Ok (u2, s2, v2t) ->
  let B := row_mx (mx m r u *m smx r r s *m mx r q vt) (mx m nc nv) in
  product m (size s2) (q + nc) (u2, s2, v2t) = B <-> low_rank r B.
Proof.
  move=> QR T LL Hu Hs Hv Hn L0 L1 Ou Ov E B. have RS := truncated_rsvd_ok T. split; last first.
    exact: (append_vectors_low QR RS LL Hu Hs Hv Hn L0 L1 Ou Ov E).
  move=> <-. apply: product_low.
  have := update_main exceeds_eps QR RS Hu Hs Hv Hn L0 L1. rewrite E.
  move=> [p [dq [u1 [vt1 [L [W [l [[E2 _ _] _ _ _ _]]]]]]]].
  have [_ /= -> _ _ _] := T _ _ _ E2. exact: geq_minl.
Qed.

Variable svd : mat R -> res (mat R * list R * mat R).
Variable argsort : list R -> list nat.

Lemma append_block_iff m r l n a b u s vt nm u2 s2 v2t : svd_ok svd -> truncated_ok rsvd -> lossless rsvd ->
  shape m r u -> shape r l s -> shape l n vt -> shape a b nm ->
  (mx m r u)^T *m mx m r u = 1%:M -> mx l n vt *m (mx l n vt)^T = 1%:M ->
  update_svd_new_submatrix 0 +%R *%R svd rsvd argsort u (SMat s) vt nm = Ok (u2, s2, v2t) ->
  let B := block_mx (mx m r u *m mx r l s *m mx l n vt) 0 0 (mx a b nm) in
  product (m + a) (size s2) (n + b) (u2, s2, v2t) = B <-> low_rank r B.
Proof.
  move=> SV T LL Hu Hs Hv Hn Ou Ov E B. have RS := truncated_rsvd_ok T. split; last first.
    exact: (append_block_low SV RS LL Hu Hs Hv Hn Ou Ov E).
  move=> <-. apply: product_low.
  have := update_mat_main argsort SV RS Hu Hs Hv Hn. rewrite E.
  move=> [d [u1 [v1t [L [W [c [[E2 _] _ _ _ _]]]]]]].
  have [_ /= -> _ _ _] := T _ _ _ E2. exact: geq_minl.
Qed.
End Append.

Lemma append_block_largest_iff (R : realFieldType) (svd : mat R -> res (mat R * list R * mat R))
    (rsvd : mat R -> nat -> res (mat R * list R * mat R)) (argsort : list R -> list nat) :
  svd_ok svd -> nonneg_svd svd -> argsort_ok (fun x y => x <= y) argsort ->
  forall m r n a b u s vt nm u2 s2 v2t,
  shape m r u -> size s = r -> shape r n vt -> shape a b nm -> all (fun y => 0 <= y) s ->
  (mx m r u)^T *m mx m r u = 1%:M -> mx r n vt *m (mx r n vt)^T = 1%:M ->
  update_svd_new_submatrix 0 +%R *%R svd rsvd argsort u (SVec s) vt nm = Ok (u2, s2, v2t) ->
  let B := block_mx (mx m r u *m dg r s *m mx r n vt) 0 0 (mx a b nm) in
  product (m + a) r (n + b) (u2, s2, v2t) = B <-> low_rank r B.
Proof.
  move=> SV NN AS m r n a b u s vt nm u2 s2 v2t Hu Hs Hv Hn PS Ou Ov E B. split; first by move=> <-; exact: product_low.
  by move=> LB; case: (append_block_largest_low SV NN AS Hu Hs Hv Hn PS Ou Ov E LB).
Qed.

Section Tucker.
Variable R : comRingType.

Lemma hosvd_dense_iff (qr : mat R -> res (mat R * mat R)) rand (rsvd : nat -> mat R -> nat -> res (mat R * list R * mat R)) :
  (forall t, truncated_ok (rsvd t)) -> (forall t, lossless (rsvd t)) ->
  forall n0 r0 n1 r1 n2 r2 (x : ten R) fs core, twf x -> tshape x = (n0, n1, n2) ->
  hosvd_dense (0 : R) +%R *%R qr rand rsvd x (r0, r1, r2) = Ok (fs, core) ->
  (forall c, in_range (n0, n1, n2) c -> rep3 fs core c = tget 0 x c) <-> fits n0 r0 n1 r1 n2 r2 (tget 0 x).
Proof.
  move=> T LL n0 r0 n1 r1 n2 r2 x fs core W S E. split; last exact: hosvd_dense_low LL _ _ _ _ _ _ _ _ _ W S E.
  have := hosvd_dense_main qr rand (truncated_right T) r0 r1 r2 W S. rewrite E => -[_ [U0 U1 U2] _ _].
  have H0 : shape n0 (minn r0 (minn (n1 * n2) n0)) (factor fs 0) by case: U0 => [? [? [? [? [_ _ _ [H _]]]]]].
  have H1 : shape n1 (minn r1 (minn (n0 * n2) n1)) (factor fs 1) by case: U1 => [? [? [? [? [_ _ _ [H _]]]]]].
  have H2 : shape n2 (minn r2 (minn (n0 * n1) n2)) (factor fs 2) by case: U2 => [? [? [? [? [_ _ _ [H _]]]]]].
  apply: (rep3_low H0 H1 H2); exact: geq_minl.
Qed.

Lemma hosvd_iff (qr : mat R -> res (mat R * mat R)) rand svds_u : svds_ok svds_u -> lossless_left svds_u ->
  forall n0 r0 n1 r1 n2 r2 inds (vals : list R) fs core,
  length vals = length inds -> List.Forall (in_range (n0, n1, n2)) inds ->
  hosvd (0 : R) +%R *%R qr rand svds_u inds vals (n0, n1, n2) (r0, r1, r2) = Ok (fs, core) ->
  (forall c, in_range (n0, n1, n2) c -> rep3 fs core c = dense (List.combine inds vals) c) <->
  fits n0 r0 n1 r1 n2 r2 (dense (List.combine inds vals)).
Proof.
  move=> SV LL n0 r0 n1 r1 n2 r2 inds vals fs core LV FR E. split; last exact: hosvd_low LL _ _ _ _ _ _ _ _ _ _ LV FR E.
  have := hosvd_main qr rand SV r0 r1 r2 LV FR. rewrite E => -[_ [U0 U1 U2] _ _].
  have H0 : shape n0 r0 (factor fs 0) by case: U0 => [? [? [_ _ _ _ [H _]]]].
  have H1 : shape n1 r1 (factor fs 1) by case: U1 => [? [? [_ _ _ _ [H _]]]].
  have H2 : shape n2 r2 (factor fs 2) by case: U2 => [? [? [_ _ _ _ [H _]]]].
  exact: (rep3_low H0 H1 H2).
Qed.

Lemma new_matrix_iff (qr : mat R -> res (mat R * mat R)) rand2 rand3 (rsvd3 rsvd4 : nat -> mat R -> nat -> res (mat R * list R * mat R)) svd_full :
  right_ok rsvd3 -> (forall t, truncated_ok (rsvd4 t)) -> (forall t, lossless (rsvd4 t)) -> svd_full_ok svd_full ->
  forall n0 r0 n1 r1 n2 r2 m0 m1 (u v w : mat R) core inds vals att fs core',
  shape n0 r0 u -> shape n1 r1 v -> shape n2 r2 w -> twf core -> tshape core = (r0, r1, r2) ->
  att_shape n2 att -> length vals = length inds -> List.Forall (in_range (m0, m1, n2)) inds ->
  orthonormal n0 r0 u -> orthonormal n1 r1 v -> orthonormal n2 r2 w ->
  update_tucker_new_matrix (0 : R) 1 +%R *%R qr rand2 rand3 rsvd3 rsvd4 svd_full (u, v, w) core inds vals (m0, m1, n2) att
    = Ok (fs, core') ->
  let T := block_tensor n0 n1 n2 r2 (rep u v w core) (dense (List.combine inds vals)) att w in
  (forall c, in_range (n0 + m0, n1 + m1, n2)%N c -> rep3 fs core' c = T c) <->
  low_rank r0 (unf 0 1 (n0 + m0) (n1 + m1) n2 T) /\ low_rank r1 (unf 1 0 (n1 + m1) (n0 + m0) n2 T).
Proof.
  move=> R3 T4 LL FU n0 r0 n1 r1 n2 r2 m0 m1 u v w core inds vals att fs core' Hu Hv Hw Wc Sc Ha LV FR Ou Ov Ow E T.
  split; last by case=> L0 L1; exact: (new_matrix_low R3 T4 LL FU Hu Hv Hw Wc Sc Ha LV FR Ou Ov Ow E L0 L1).
  have := new_matrix_main qr rand2 rand3 R3 (truncated_right T4) FU Hu Hv Hw Wc Sc Ha LV FR. rewrite E.
  move=> [_ [H0 H1 H2] _ _] EX. by have [] := rep3_low H0 H1 H2 (leqnn _) (leqnn _) (leqnn _) EX.
Qed.
End Tucker.

Lemma random_low_iff (R : realFieldType) (qr : mat R -> res (mat R * mat R))
    (svd : mat R -> res (mat R * list R * mat R)) (randn : nat -> nat -> mat R) :
  qr_ok qr -> svd_ok svd -> randn_ok randn -> descending_svd svd ->
  forall m n x rank npow os u s vt, shape m n x ->
  random_svd 0 +%R *%R qr svd randn x rank npow os = Ok (u, s, vt) ->
  (exists Y, mx m n x = powers (mx m n x) (mx m n x *m mx n (rank + os) (randn n (rank + os)%N)) npow *m Y) ->
  product m (size s) n (u, s, vt) = mx m n x <-> low_rank rank (mx m n x).
Proof.
  move=> QR SV RN [NN DS] m n x rank npow os u s vt Hx E [Y HY].
  have := random_svd_main QR SV RN rank npow os Hx. rewrite E /=.
  set K := minn m (rank + os). set k := minn K n. set l := minn rank k.
  move=> [q [uf [sf [vf [O [T HT] [Hsf P [y [uy SY]]] [OU OV] [Hu Es Hv Eu Ev]]]]]].
  have Hs : size s = l by rewrite Es size_take Hsf.
  have PX : mx m k uf *m dg k sf *m mx k n vf = mx m n x.
    by rewrite P {1}HY HT !mulmxA -(mulmxA q) O mulmx1 -HT -HY.
  split; first by move=> <-; apply: product_low; rewrite Hs geq_minl.
  move=> LR. rewrite /product /= Hs Eu Ev -PX.
  have LD : low_rank rank (dg k sf).
    have -> : dg k sf = (mx m k uf)^T *m mx m n x *m (mx k n vf)^T.
      by rewrite -PX !mulmxA OU mul1mx -mulmxA OV mulmx1.
    exact: low_rank_mul.
  have Z t : (rank <= t)%N -> nth 0 sf t = 0.
    move=> Ht. case: (ltnP t k) => Hk; last by rewrite nth_default // Hsf.
    have /hasP [z Hz /eqP Z0] : has (fun z => nth 0 sf z == 0) (iota 0 rank.+1).
      apply: (low_rank_zero LD); rewrite ?iota_uniq ?size_iota //.
      apply/allP => z. rewrite mem_iota /= add0n ltnS => H. exact: leq_ltn_trans (leq_trans H Ht) Hk.
    have ZT : (z <= t < size sf)%N.
      rewrite Hsf Hk andbT. move: Hz; rewrite mem_iota /= add0n ltnS => H. exact: leq_trans H Ht.
    apply/eqP. rewrite Order.POrderTheory.eq_le. apply/andP; split.
      by have := DS _ _ _ _ SY z t ZT; rewrite Z0.
    by apply: (allP (NN _ _ _ _ SY)); apply: mem_nth; rewrite Hsf.
  have -> : dg l s = dg l sf.
    congr diag_mx. apply/rowP => i. rewrite !mxE Es nth_take //. exact: leq_trans (ltn_ord i) (geq_minl _ _).
  apply: prod3_take; first exact: geq_minr.
  move=> t. rewrite geq_min => /orP [/Z //|Hk]. by rewrite nth_default // Hsf.
Qed.
