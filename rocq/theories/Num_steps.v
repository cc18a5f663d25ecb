(** Effect of one call of [_updater] on the scores when nothing is truncated. *)
From Coq Require Import ZArith Lia.
From Verif Require Import Prelude DataPrep_model DataPrep_spec Psi_model Psi_spec Tensor_model Matrix_model Attention_model LinAlg_model Num_model Num_sim.
Set Warnings "-notation-overridden".
From mathcomp Require Import all_ssreflect all_algebra.
From Verif Require Import LinAlg_spec LinAlg_bridge LinAlg_psi LinAlg_vectors LinAlg_block LinAlg_emb Upd_spec Exact_spec Exact_main Exact_final Num_spec Num_upd Num_book Num_cells.
Set Implicit Arguments.
Unset Strict Implicit.
Unset Printing Implicit Defensive.
Import GRing.Theory Num.Theory.
Local Open Scope ring_scope.

Section Rank.
Variable F : fieldType.

Lemma rank_low m n r (M : 'M[F]_(m, n)) : (\rank M <= r)%N -> low_rank r M.
Proof. move=> H. apply: low_rank_le H _. by exists (col_base M), (row_base M); rewrite mulmx_base. Qed.

Lemma rank_fmx m n m' n' (h : nat -> nat -> F) : (m <= m')%N -> (n <= n')%N ->
  (forall i j, (m <= i)%N || (n <= j)%N -> h i j = 0) -> \rank (fmx m' n' h) = \rank (fmx m n h).
Proof.
  move=> /subnKC <- /subnKC <-. set a := (m' - m)%N. set b := (n' - n)%N => Z.
  have -> : fmx (m + a) (n + b) h = block_mx (fmx m n h) 0 0 (0 : 'M_(a, b)).
    apply/matrixP => i j. rewrite !mxE. case: splitP => i' Ei; rewrite !mxE; case: splitP => j' Ej; rewrite ?mxE Ei Ej //; apply: Z; rewrite ?leq_addr ?orbT //.
  by rewrite rank_diag_block_mx mxrank0 addn0.
Qed.

(** Columns of [T] are kept by a product with full rank. *)
Lemma rank_factor m n k p (T : 'M[F]_(m, n)) (V : 'M_(n, k)) (W : 'M_(k, p)) :
  \rank (T *m (V *m W)) = \rank T -> exists X, T = T *m V *m X.
Proof.
  move=> H. have S : ((T *m V)^T <= T^T)%MS by rewrite trmx_mul submxMl.
  have : (T^T <= (T *m V)^T)%MS.
    rewrite -(geq_leqif (mxrank_leqif_sup S)) !mxrank_tr -{1}H mulmxA. exact: mxrankM_maxl.
  case/submxP => D E. exists D^T. apply: trmx_inj. by rewrite [RHS]trmx_mul trmxK.
Qed.
End Rank.

Section Steps.
Variable R : realFieldType.
Variables (qr : mat R -> res (mat R * mat R)) (svd : mat R -> res (mat R * list R * mat R)).
Variables (rsvd : mat R -> nat -> res (mat R * list R * mat R)) (exceeds_eps : R -> bool).
Variables (argsort : list R -> list nat).
Hypotheses (QR : qr_ok qr) (SV : svd_ok svd) (NN : nonneg_svd svd) (TR : truncated_ok rsvd) (LL : lossless rsvd)
  (AS : argsort_ok (fun x y => x <= y) argsort).

(** Incremental SVD on full-rank targets: exact and orthonormal. *)
Lemma vectors_exact m r q c u s vt nv u2 s2 v2t : shape m r u -> sshape r r s -> shape r q vt -> shape m c nv ->
  (0 < r <= m)%N -> (mx m r u)^T *m mx m r u = 1%:M -> mx r q vt *m (mx r q vt)^T = 1%:M ->
  update_svd_new_vectors 0 1 +%R *%R (fun x y => x - y) qr rsvd exceeds_eps u s vt nv = Ok (u2, s2, v2t) ->
  let B := row_mx (mx m r u *m smx r r s *m mx r q vt) (mx m c nv) in
  \rank B = r ->
  [/\ mx m r u2 *m smx r r (SVec s2) *m mx r (q + c) v2t = B, (mx m r u2)^T *m mx m r u2 = 1%:M
    & mx r (q + c) v2t *m (mx r (q + c) v2t)^T = 1%:M].
Proof.
  move=> Hu Hs Hv Hn Hr Ou Ov E B RB. have LB : low_rank r B by apply: rank_low; rewrite RB.
  have RS := truncated_rsvd_ok TR.
  have := @vectors_shape R qr svd rsvd exceeds_eps QR TR m r q c u s vt nv Hu Hs Hv Hn Hr. rewrite E => -[Hc [H1 H2 H3]].
  have [R0 Rm] := andP Hr. have L1 : (0 < r + c)%N by apply: ltn_addr.
  have := update_main exceeds_eps QR RS Hu Hs Hv Hn Hc L1. rewrite E.
  move=> [p [dq [u1 [vt1 [L [W [l [[E2 Hdq _] PR [_ Hl _ _ _] [Eu Ev] [OW [_ [LOW ISO]]]]]]]]]]].
  rewrite H2 in Hl. subst l.
  have [K EK] := LOW Ou Ov. have := lossless_at LL E2 Hdq. rewrite EK => Q. have {}Q := Q (low_rank_mul _ _ LB).
  rewrite /product /= H2 -EK in Q.
  have := TR E2. rewrite (proj1 Hdq) (proj2 Hdq) => -[_ /= Hk _]. rewrite -Hk H2 => OU1 OV1.
  have EB : mx m r u2 *m dg r s2 *m mx r (q + c) v2t = B by rewrite Eu Ev /B -PR -Q !mulmxA.
  have OV2 : mx r (q + c) v2t *m (mx r (q + c) v2t)^T = 1%:M.
    by rewrite Ev trmx_mul mulmxA -(mulmxA _ W) (OW Ov) mulmx1 OV1.
  split; [by move: EB; rewrite -smx_vec|idtac|exact: OV2].
  have UD : dg r s2 \in unitmx.
    rewrite -row_full_unit -col_leq_rank -{1}RB -EB. apply: leq_trans (mxrankM_maxl _ _) _. exact: mxrankM_maxr.
  have ED : mx m r u2 *m dg r s2 = L *m mx p (r + c) dq *m (mx r (r + c) vt1)^T.
    by rewrite -Q Eu -!mulmxA OV1 mulmx1.
  have G : (dg r s2)^T *m ((mx m r u2)^T *m mx m r u2) *m dg r s2 = (dg r s2)^T *m dg r s2.
    transitivity ((mx m r u2 *m dg r s2)^T *m (mx m r u2 *m dg r s2)); first by rewrite trmx_mul !mulmxA.
    rewrite ED trmx_mul trmxK -!mulmxA (mulmxA _ _ (mx r (r + c) vt1)^T) (mulmxA (L *m _)^T) ISO //.
    rewrite -Q !trmx_mul. rewrite -!mulmxA OV1 mulmx1 (mulmxA (mx r (r + c) vt1)) OV1 mul1mx.
    by rewrite (mulmxA (mx p r u1)^T) OU1 mul1mx.
  have UT : (dg r s2)^T \in unitmx by rewrite unitmx_tr.
  have := congr1 (fun M => invmx (dg r s2)^T *m M *m invmx (dg r s2)) G.
  by rewrite -!mulmxA !(mulmxA (invmx _)) mulVmx // mulmxV // !mul1mx mulmx1.
Qed.

(** Block: exact and orthonormal. *)
Lemma block_exact m r n a b u s vt nm u2 s2 v2t : shape m r u -> sshape r r s -> shape r n vt -> shape a b nm ->
  (match s with SVec v => all (fun y => 0 <= y) v | SMat _ => true end) ->
  (mx m r u)^T *m mx m r u = 1%:M -> mx r n vt *m (mx r n vt)^T = 1%:M ->
  update_svd_new_submatrix 0 +%R *%R svd rsvd argsort u s vt nm = Ok (u2, s2, v2t) ->
  let B := block_mx (mx m r u *m smx r r s *m mx r n vt) 0 0 (mx a b nm) in
  (\rank B <= r)%N ->
  [/\ mx (m + a) r u2 *m smx r r (SVec s2) *m mx r (n + b) v2t = B, (mx (m + a) r u2)^T *m mx (m + a) r u2 = 1%:M
    & mx r (n + b) v2t *m (mx r (n + b) v2t)^T = 1%:M].
Proof.
  move=> Hu; case: s => [s|s] Hs Hv Hn HN Ou Ov E B RB; rewrite smx_vec.
  - have := update_vec_main rsvd SV AS Hu (proj1 Hs) Hv Hn. rewrite E => -[u1 [s1 [v1t [_ [idx [rest [_ _ _ _ [_ O1 O2]]]]]]]].
    have EB : B = block_mx (mx m r u *m dg r s *m mx r n vt) 0 0 (mx a b nm) by rewrite -smx_vec.
    split; [|exact: O1|exact: O2]. rewrite EB in RB *.
    by have [_] := append_block_largest_low SV NN AS Hu (proj1 Hs) Hv Hn HN Ou Ov E (rank_low RB).
  - have := @block_shape R qr svd rsvd argsort (fun x y => x <= y) SV TR AS m r n a b u (SMat s) vt nm Hu Hs Hv Hn. rewrite E => -[H1 H2 H3].
    have := update_mat_main argsort SV (truncated_rsvd_ok TR) Hu Hs Hv Hn. rewrite E.
    move=> [d [u1 [v1t [L [W [c [[E2 [Hd1 Hd2]] [_ Hc _] _ _ [O1 [O2 _]]]]]]]]].
    rewrite H2 in Hc. subst c.
    have := TR E2. rewrite Hd1 Hd2 => -[_ /= Hk _]. rewrite -Hk H2 => OU1 OV1.
    split; [|exact: O1|exact: O2].
    have := append_block_low SV (truncated_rsvd_ok TR) LL Hu Hs Hv Hn Ou Ov E (rank_low RB). by rewrite /product /= H2.
Qed.

(** Integrator: exact and orthonormal. *)
Lemma psi_exact m n r u s vt da u1 s1 v1t : shape m r u -> sshape r r s -> shape r n vt -> shape m n da -> (0 < r <= minn m n)%N ->
  mx r n vt *m (mx r n vt)^T = 1%:M ->
  psi_step 0 +%R *%R (fun x y => x - y) qr u s vt da = Ok (u1, s1, v1t) ->
  let A := mx m r u *m smx r r s *m mx r n vt in let T := A + mx m n da in
  ((mx m r u1)^T *m mx m r u1 = 1%:M /\ mx r n v1t *m (mx r n v1t)^T = 1%:M) /\
  (\rank (T *m A^T) = \rank T -> mx m r u1 *m smx r r (SMat s1) *m mx r n v1t = T).
Proof.
  move=> Hu Hs Hv Hd /andP [R0]; rewrite leq_min => /andP [Rm Rn] Ov E A T.
  have := psi_step_main QR Hu Hs Hv Hd. rewrite E /= (minn_idPr Rm) (minn_idPr Rn) => -[_ _ _ OO _]. split=> // RK.
  have := psi_step_exact_main QR Hu Hs Hv Hd E. rewrite /= (minn_idPr Rm) (minn_idPr Rn) => -[_ _ P]. apply: P.
    by rewrite trmxK.
  rewrite -/A -/T. apply: (@rank_factor _ _ _ _ _ T _ ((smx r r s)^T *m (mx m r u)^T)).
  by rewrite -RK /A !trmx_mul !mulmxA.
Qed.

(** Integrator: a row of the target that the old scores annihilate becomes zero. *)
Lemma psi_cold m n r u s vt da u1 s1 v1t (i : 'I_m) : shape m r u -> sshape r r s -> shape r n vt -> shape m n da -> (0 < r <= minn m n)%N ->
  (mx m r u)^T *m mx m r u = 1%:M -> mx r n vt *m (mx r n vt)^T = 1%:M ->
  psi_step 0 +%R *%R (fun x y => x - y) qr u s vt da = Ok (u1, s1, v1t) ->
  let A := mx m r u *m smx r r s *m mx r n vt in let T := A + mx m n da in
  \rank (T *m A^T) = r -> row i (T *m A^T) = 0 -> row i (mx m r u1 *m smx r r (SMat s1) *m mx r n v1t) = 0.
Proof.
  move=> Hu Hs Hv Hd /andP [R0]; rewrite leq_min => /andP [Rm Rn] Ou Ov E A T RK RZ.
  have := psi_step_main QR Hu Hs Hv Hd. rewrite E /= (minn_idPr Rm) (minn_idPr Rn) => -[_ _ _ [OU1 _] [[X EX] _]].
  set U := mx m r u in Ou EX A T RK RZ *. set S := smx r r s in EX A T RK RZ *. set V := mx r n vt in Ov EX A T RK RZ *.
  have TV : T *m V^T = mx m r u1 *m X by rewrite -EX /T /A mulmxDl -!mulmxA Ov mulmx1.
  have TA : T *m A^T = mx m r u1 *m X *m (S^T *m U^T) by rewrite -TV /A !trmx_mul !mulmxA.
  have US : S^T \in unitmx.
    rewrite -row_full_unit -col_leq_rank -{1}RK TA. apply: leq_trans (mxrankM_maxr _ _) _. exact: mxrankM_maxl.
  have UX : X \in unitmx.
    rewrite -row_full_unit -col_leq_rank -{1}RK TA. apply: leq_trans (mxrankM_maxl _ _) _. exact: mxrankM_maxr.
  have Z1 : row i (mx m r u1) = 0.
    have := congr1 (fun M => M *m U *m invmx S^T *m invmx X) RZ.
    rewrite TA -!row_mul -!mulmxA. rewrite (mulmxA U^T) Ou mul1mx (mulmxA S^T) mulmxV // mul1mx mulmxV // mulmx1.
    by rewrite !mul0mx.
  by rewrite -!mulmxA row_mul Z1 mul0mx.
Qed.

(** Zero rows: orthonormal. *)
Lemma zero_users m r n c (u : mat R) (s : middle R) (vt : mat R) : shape m r u -> sshape r r s -> shape r n vt ->
  exists u2, [/\ psi_add_zero 0 EUsers c u s vt = Ok (u2, s, vt), shape (m + c) r u2 & mx (m + c) r u2 = col_mx (mx m r u) 0].
Proof.
  move=> Hu Hs Hv. rewrite /psi_add_zero /zero_rows plusE. case: (Hu) => -> ->. have [Hz Ez] := zeros_ok R (m + c) r.
  have [d -> [Hd Ed]] := below_ok Hu Hz. exists d. split=> //. by rewrite Ed Ez linear0.
Qed.
Lemma zero_items m r n c (u : mat R) (s : middle R) (vt : mat R) : shape m r u -> sshape r r s -> shape r n vt ->
  exists v2, [/\ psi_add_zero 0 EItems c u s vt = Ok (u, s, v2), shape r (n + c) v2 & mx r (n + c) v2 = row_mx (mx r n vt) 0].
Proof.
  move=> Hu Hs Hv. rewrite /psi_add_zero /zero_rows plusE. have [Ht Et] := transpose_ok Hv. case: (Ht) => -> ->.
  have [Hz Ez] := zeros_ok R (n + c) r. have [d -> [Hd Ed]] := below_ok Ht Hz. have [Hdt Edt] := transpose_ok Hd.
  exists (transpose 0 d). split=> //. by rewrite Edt Ed Ez Et tr_col_mx trmxK linear0 linear0.
Qed.
End Steps.
