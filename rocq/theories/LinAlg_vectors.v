(** Proofs for C39: appending vectors to a decomposition. *)
From Verif Require Import Prelude Tensor_model Matrix_model Attention_model LinAlg_model.
Set Warnings "-notation-overridden".
From mathcomp Require Import all_ssreflect all_algebra.
From Verif Require Import LinAlg_spec LinAlg_bridge LinAlg_psi.
Set Implicit Arguments.
Unset Strict Implicit.
Unset Printing Implicit Defensive.
Import GRing.Theory.
Local Open Scope ring_scope.

Section Vec.
Variable R : comRingType.
Variables (qr : mat R -> res (mat R * mat R)) (rsvd : mat R -> nat -> res (mat R * list R * mat R))
          (exceeds_eps : R -> bool).
Hypotheses (QR : qr_ok qr) (RS : rsvd_ok rsvd).
Notation factors := (new_vectors_factors (0 : R) 1 +%R *%R (fun x y => x - y) qr exceeds_eps).
Notation update := (update_svd_new_vectors (0 : R) 1 +%R *%R (fun x y => x - y) qr rsvd exceeds_eps).

Lemma mx_block m1 m2 n1 n2 (c : mat R) (f11 f12 f21 f22 : nat -> nat -> R) :
  (forall i j, (i < m1 + m2)%N -> (j < n1 + n2)%N ->
     mget 0 c i j = if (i < m1)%N then (if (j < n1)%N then f11 i j else f12 i (j - n1)%N)
                    else (if (j < n1)%N then f21 (i - m1)%N j else f22 (i - m1)%N (j - n1)%N)) ->
  mx (m1 + m2) (n1 + n2) c =
    block_mx (\matrix_(i < m1, j < n1) f11 i j) (\matrix_(i, j) f12 i j) (\matrix_(i, j) f21 i j) (\matrix_(i, j) f22 i j).
Proof.
  move=> H; apply/matrixP => i j; rewrite !mxE H //.
  case: (splitP i) => i' Ei; rewrite mxE; case: (splitP j) => j' Ej; rewrite !mxE Ei ?Ej ?addKn //.
Qed.

Lemma factors_main m r q nc u s vt nv :
  shape m r u -> sshape r r s -> shape r q vt -> shape m nc nv -> (nc <= m)%N -> (0 < r + nc)%N ->
  match factors u s vt nv with
  | Err e => exists x, qr x = Err e
  | Ok (uj, dq, vi) =>
    let A := mx m r u *m smx r r s *m mx r q vt in
    exists p,
    [/\ [/\ shape m p uj, shape p (r + nc) dq & (minn m (r + nc) <= p <= r + nc)%N], shape (q + nc) (r + nc) vi,
        mx m p uj *m mx p (r + nc) dq *m (mx (q + nc) (r + nc) vi)^T = row_mx A (mx m nc nv),
        mx r q vt *m (mx r q vt)^T = 1%:M -> (mx (q + nc) (r + nc) vi)^T *m mx (q + nc) (r + nc) vi = 1%:M
      & ((mx m r u)^T *m mx m r u = 1%:M ->
         (exists L, L *m (mx m nc nv - mx m r u *m ((mx m r u)^T *m mx m nc nv)) = 1%:M) ->
         (mx m p uj)^T *m mx m p uj = 1%:M) /\
        ((mx m r u)^T *m mx m r u = 1%:M -> mx r q vt *m (mx r q vt)^T = 1%:M ->
         exists K : 'M_(p, m), mx p (r + nc) dq = K *m row_mx A (mx m nc nv) *m mx (q + nc) (r + nc) vi) /\
        ((mx m r u)^T *m mx m r u = 1%:M -> 
         (mx m p uj *m mx p (r + nc) dq)^T *m (mx m p uj *m mx p (r + nc) dq) = (mx p (r + nc) dq)^T *m mx p (r + nc) dq)]
  end.
Proof.
  move=> Hu Hs Hv Hn Hnc Hpos; rewrite /new_vectors_factors !plusE.
  case: (Hu) => [_ ->]. case: (Hv) => [_ ->]. case: (Hn) => [_ ->].
  have [Hut Eut] := transpose_ok Hu. have [Hs' Es'] := as_matrix_ok Hs. have [Hvt Evt] := transpose_ok Hv.
  have [pr -> [Hp Ep]] := dot_ok Hut Hn. rewrite /=.
  have [up -> [Hup Eup]] := dot_ok Hu Hp. rewrite /=.
  have [co -> [Hco Eco]] := msub_ok Hn Hup. rewrite /=.
  case E1 : (qr co) => [[j k]|e] /=; last by exists co.
  move: (QR E1); case: (Hco) => -> -> /=. rewrite (minn_idPr Hnc) => -[Hj Hk PJ OJ].
  have [uj -> [Huj Euj]] := hstack_ok Hu Hj. rewrite /=.
  have [vi0 -> [Hvi0 Cvi0]] := set_block_ok (zeros 0 (q + nc) (r + nc)) 0 0 Hvt. rewrite /=.
  have [Hey Eey] := eye_ok R nc.
  have [vi -> [Hvi Cvi]] := set_block_ok vi0 q r Hey. rewrite /=.
  have [dq0 -> [Hdq0 Cdq0]] := set_block_ok (zeros 0 (r + nc) (r + nc)) 0 0 Hs'. rewrite /=.
  have [dq1 -> [Hdq1 Cdq1]] := set_block_ok dq0 0 r Hp. rewrite /=.
  have [dq -> [Hdq Cdq]] := set_block_ok dq1 r r Hk. rewrite /=.
  rewrite /= in Hvi0 Hdq0. case: (Hvi0) Hvi Cvi => -> -> Hvi Cvi. case: (Hdq0) Hdq1 Cdq1 => -> -> Hdq1 Cdq1.
  case: (Hdq1) Hdq Cdq => -> -> Hdq Cdq.
  have Evi : mx (q + nc) (r + nc) vi = block_mx (mx r q vt)^T 0 0 1%:M.
    rewrite (@mx_block q nc r nc vi (mget 0 (transpose 0 vt)) (fun _ _ => 0) (fun _ _ => 0) (mget 0 (eye 0 1 nc))).
      rewrite -Evt -Eey; congr block_mx; by apply/matrixP => a b; rewrite !mxE.
    move=> a b Ha Hb. rewrite Cvi // Ha Hb andbT /= Cvi0 //= !add0n !subn0.
    case: (ltnP a q) => Ha'; case: (ltnP b r) => Hb' //=; by rewrite build_mget.
  have Edq : mx (r + nc) (r + nc) dq = block_mx (smx r r s) ((mx m r u)^T *m mx m nc nv) 0 (mx nc nc k).
    rewrite (@mx_block r nc r nc dq (mget 0 (as_matrix 0 s)) (mget 0 pr) (fun _ _ => 0) (mget 0 k)).
      rewrite -Es' -Eut -Ep; congr block_mx; by apply/matrixP => a b; rewrite !mxE.
    move=> a b Ha Hb. rewrite Cdq // Ha Hb andbT /= Cdq1 //= Hb !andbT add0n subn0 Cdq0 //= !add0n !subn0.
    case: (ltnP a r) => Ha'; case: (ltnP b r) => Hb' //=; by rewrite build_mget.
  have EJK : mx m nc j *m mx nc nc k = mx m nc nv - mx m r u *m ((mx m r u)^T *m mx m nc nv).
    by rewrite PJ Eco Eup Ep Eut.
  have EP : mx m (r + nc) uj *m mx (r + nc) (r + nc) dq *m (mx (q + nc) (r + nc) vi)^T
            = row_mx (mx m r u *m smx r r s *m mx r q vt) (mx m nc nv).
    rewrite Euj Edq Evi mul_row_block mulmx0 addr0 EJK addrC subrK tr_block_mx !trmx0 trmxK trmx1.
    by rewrite mul_row_block !mulmx0 mulmx1 addr0 add0r.
  have OV : mx r q vt *m (mx r q vt)^T = 1%:M -> (mx (q + nc) (r + nc) vi)^T *m mx (q + nc) (r + nc) vi = 1%:M.
    move=> O. rewrite Evi tr_block_mx !trmx0 trmxK trmx1 mulmx_block !mulmx0 !mul0mx mulmx1 O !addr0 add0r.
    by rewrite -scalar_mx_block.
  have OU : (mx m r u)^T *m mx m r u = 1%:M ->
        (exists L, L *m (mx m nc nv - mx m r u *m ((mx m r u)^T *m mx m nc nv)) = 1%:M) ->
        (mx m (r + nc) uj)^T *m mx m (r + nc) uj = 1%:M.
    move=> O [L]. rewrite -EJK mulmxA => /mulmx1C KI.
    have UJ : (mx m r u)^T *m mx m nc j = 0.
      have : (mx m r u)^T *m (mx m nc j *m mx nc nc k) *m (L *m mx m nc j) = 0.
        by rewrite EJK mulmxBr !mulmxA O mul1mx subrr !mul0mx.
      by rewrite -!mulmxA KI mulmx1.
    have JU : (mx m nc j)^T *m mx m r u = 0 by rewrite -[LHS]trmxK trmx_mul trmxK UJ trmx0.
    by rewrite Euj tr_row_mx mul_col_row O UJ JU OJ -scalar_mx_block.
  have LOW : (mx m r u)^T *m mx m r u = 1%:M -> mx r q vt *m (mx r q vt)^T = 1%:M ->
      exists K : 'M_(r + nc, m), mx (r + nc) (r + nc) dq
        = K *m row_mx (mx m r u *m smx r r s *m mx r q vt) (mx m nc nv) *m mx (q + nc) (r + nc) vi.
    move=> OU' OV'. exists (col_mx (mx m r u)^T ((mx m nc j)^T *m (1%:M - mx m r u *m (mx m r u)^T))).
    have Z : (1%:M - mx m r u *m (mx m r u)^T) *m mx m r u = 0 by rewrite mulmxBl mul1mx -mulmxA OU' mulmx1 subrr.
    have EN : (1%:M - mx m r u *m (mx m r u)^T) *m mx m nc nv = mx m nc j *m mx nc nc k by rewrite EJK mulmxBl mul1mx mulmxA.
    rewrite mul_col_row Evi mulmx_block !mulmx0 !mulmx1 !addr0 !add0r Edq. congr block_mx.
    - by rewrite !mulmxA OU' mul1mx -mulmxA OV' mulmx1.
    - by rewrite !mulmxA -(mulmxA _ _ (mx m r u)) Z mulmx0 !mul0mx.
    - by rewrite -mulmxA EN mulmxA OJ mul1mx.
  have ISO : (mx m r u)^T *m mx m r u = 1%:M ->
      (mx m (r + nc) uj *m mx (r + nc) (r + nc) dq)^T *m (mx m (r + nc) uj *m mx (r + nc) (r + nc) dq)
      = (mx (r + nc) (r + nc) dq)^T *m mx (r + nc) (r + nc) dq.
    move=> O. set X := (mx m r u)^T *m mx m nc j.
    have XK : X *m mx nc nc k = 0 by rewrite /X -mulmxA EJK mulmxBr !mulmxA O mul1mx subrr.
    have KX : (mx nc nc k)^T *m X^T = 0 by rewrite -trmx_mul XK trmx0.
    have JU : (mx m nc j)^T *m mx m r u = X^T by rewrite /X trmx_mul trmxK.
    rewrite trmx_mul !mulmxA -(mulmxA _ _ (mx m (r + nc) uj)) Euj tr_row_mx mul_col_row O OJ JU -/X Edq tr_block_mx trmx0.
    rewrite !mulmx_block ?mul0mx ?mulmx0 ?mulmx1 KX ?addr0 ?add0r ?mulmxDl -?(mulmxA _ X) XK ?mulmx0 ?addr0 ?add0r. by congr block_mx.
  rewrite /orth_err eqb_eqn. case: (Huj) => -> ->. rewrite (gtn_eqF Hpos) /=.
  case: (exceeds_eps _).
  - case E2 : (qr uj) => [[uj' k']|e] /=; last by exists uj.
    move: (QR E2); case: (Huj) => -> -> /= [Huj' Hk' P2 O2].
    have [dq' -> [Hdq' Edq']] := dot_ok Hk' Hdq.
    exists (minn m (r + nc)); split => //. by split => //; rewrite leqnn geq_minr. by rewrite Edq' mulmxA P2.
    split=> //. split=> [O1 O3|O1]; last by rewrite trmx_mul mulmxA -(mulmxA _ _ (mx _ _ uj')) O2 mulmx1.
    have [K EK] := LOW O1 O3. exists (mx (minn m (r + nc)) (r + nc) k' *m K). by rewrite Edq' EK !mulmxA.
  - by exists (r + nc)%N; split => //; split => //; rewrite leqnn geq_minr.
Qed.

Lemma update_main m r q nc u s vt nv :
  shape m r u -> sshape r r s -> shape r q vt -> shape m nc nv -> (nc <= m)%N -> (0 < r + nc)%N ->
  match update u s vt nv with
  | Err e => (exists x, qr x = Err e) \/ (exists x, rsvd x r = Err e)
  | Ok (u2, s2, v2t) =>
    let A := mx m r u *m smx r r s *m mx r q vt in
    exists p dq u1 vt1 (L : 'M[R]_(m, p)) (W : 'M[R]_(r + nc, q + nc)) l,
    [/\ [/\ rsvd dq r = Ok (u1, s2, vt1), shape p (r + nc) dq & (minn m (r + nc) <= p <= r + nc)%N],
        L *m mx p (r + nc) dq *m W = row_mx A (mx m nc nv),
        [/\ shape m l u2, size s2 = l, shape l (q + nc) v2t, shape p l u1 & shape l (r + nc) vt1],
        mx m l u2 = L *m mx p l u1 /\ mx l (q + nc) v2t = mx l (r + nc) vt1 *m W
      & (mx r q vt *m (mx r q vt)^T = 1%:M -> W *m W^T = 1%:M) /\
        ((mx m r u)^T *m mx m r u = 1%:M ->
         (exists L, L *m (mx m nc nv - mx m r u *m ((mx m r u)^T *m mx m nc nv)) = 1%:M) -> L^T *m L = 1%:M) /\
        ((mx m r u)^T *m mx m r u = 1%:M -> mx r q vt *m (mx r q vt)^T = 1%:M ->
         exists K : 'M_(p, m), mx p (r + nc) dq = K *m row_mx A (mx m nc nv) *m W^T) /\
        ((mx m r u)^T *m mx m r u = 1%:M ->
         (L *m mx p (r + nc) dq)^T *m (L *m mx p (r + nc) dq) = (mx p (r + nc) dq)^T *m mx p (r + nc) dq)]
  end.
Proof.
  move=> Hu Hs Hv Hn Hnc Hpos. have := factors_main Hu Hs Hv Hn Hnc Hpos.
  rewrite /update_svd_new_vectors. case: (new_vectors_factors _ _ _ _ _ _ _ _ _ _ _) => [[[uj dq] vi]|e] /=; last by left.
  move=> [p [[Huj Hdq Hp] Hvi P OV [OU LOW]]].
  case: (Hu) => _ ->. case E : (rsvd dq r) => [[[u1 s2] vt1]|e] /=; last by right; exists dq.
  case: (RS E) => l; case: (Hdq) => -> -> [Hu1 Hs2 Hvt1].
  have [u2 -> [Hu2 Eu2]] := dot_ok Huj Hu1. rewrite /=.
  have [Hvt1t Evt1t] := transpose_ok Hvt1.
  have [v2 -> [Hv2 Ev2]] := dot_ok Hvi Hvt1t. rewrite /=.
  have [Hv2t Ev2t] := transpose_ok Hv2.
  exists p, dq, u1, vt1, (mx m p uj), (mx (q + nc) (r + nc) vi)^T, l; split => //.
  - by split => //; rewrite Ev2t Ev2 Evt1t trmx_mul trmxK.
  - rewrite trmxK. by split.
Qed.

(** The error is exactly the image of the error of the inner SVD. *)
Lemma update_error_main m r q nc u s vt nv u2 s2 v2t :
  shape m r u -> sshape r r s -> shape r q vt -> shape m nc nv -> (nc <= m)%N -> (0 < r + nc)%N ->
  update u s vt nv = Ok (u2, s2, v2t) ->
  let A := mx m r u *m smx r r s *m mx r q vt in
  exists p dq u1 vt1 (L : 'M[R]_(m, p)) (W : 'M[R]_(r + nc, q + nc)) l,
  [/\ rsvd dq r = Ok (u1, s2, vt1),
      [/\ shape m l u2, size s2 = l & shape l (q + nc) v2t],
      mx m l u2 *m dg l s2 *m mx l (q + nc) v2t - row_mx A (mx m nc nv)
      = L *m (mx p l u1 *m dg l s2 *m mx l (r + nc) vt1 - mx p (r + nc) dq) *m W,
      mx p l u1 *m dg l s2 *m mx l (r + nc) vt1 = mx p (r + nc) dq ->
      mx m l u2 *m dg l s2 *m mx l (q + nc) v2t = row_mx A (mx m nc nv)
    & (mx r q vt *m (mx r q vt)^T = 1%:M -> mx l (r + nc) vt1 *m (mx l (r + nc) vt1)^T = 1%:M ->
       mx l (q + nc) v2t *m (mx l (q + nc) v2t)^T = 1%:M) /\
      ((mx m r u)^T *m mx m r u = 1%:M ->
       (exists L, L *m (mx m nc nv - mx m r u *m ((mx m r u)^T *m mx m nc nv)) = 1%:M) ->
       (mx p l u1)^T *m mx p l u1 = 1%:M -> (mx m l u2)^T *m mx m l u2 = 1%:M)].
Proof.
  move=> Hu Hs Hv Hn Hnc Hpos E A. have := update_main Hu Hs Hv Hn Hnc Hpos. rewrite E /= -/A.
  move=> [p [dq [u1 [vt1 [L [W [l [[E1 Hdq Hp] P [H1 H2 H3 H4 H5] [E2 E3] [OV [OU _]]]]]]]]]].
  have EQ : mx m l u2 *m dg l s2 *m mx l (q + nc) v2t - row_mx A (mx m nc nv)
      = L *m (mx p l u1 *m dg l s2 *m mx l (r + nc) vt1 - mx p (r + nc) dq) *m W.
    by rewrite E2 E3 -P mulmxBr mulmxBl !mulmxA.
  exists p, dq, u1, vt1, L, W, l; split => //.
  - move=> EI. apply/eqP. by rewrite -subr_eq0 EQ EI subrr mulmx0 mul0mx.
  - split.
    + move=> O1 O2. by rewrite E3 trmx_mul mulmxA -(mulmxA _ W) OV // mulmx1.
    + move=> O1 HL O2. by rewrite E2 trmx_mul mulmxA -(mulmxA _ L^T) OU // mulmx1.
Qed.

(** More new vectors than rows always fails. *)
Lemma update_too_many_main m r q nc u s vt nv :
  shape m r u -> sshape r r s -> shape r q vt -> shape m nc nv -> (m < nc)%N ->
  exists2 e, update u s vt nv = Err e & e = ValueError \/ (exists x, qr x = Err e) \/ (exists x, rsvd x r = Err e).
Proof.
  move=> Hu Hs Hv Hn Hnc; rewrite /update_svd_new_vectors /new_vectors_factors !plusE.
  case: (Hu) => [_ ->]. case: (Hv) => [_ ->]. case: (Hn) => [_ ->].
  have [Hut Eut] := transpose_ok Hu. have [Hs' Es'] := as_matrix_ok Hs. have [Hvt Evt] := transpose_ok Hv.
  have [pr -> [Hp Ep]] := dot_ok Hut Hn. rewrite /=.
  have [up -> [Hup Eup]] := dot_ok Hu Hp. rewrite /=.
  have [co -> [Hco Eco]] := msub_ok Hn Hup. rewrite /=.
  case E1 : (qr co) => [[j k]|e] /=; last by exists e => //; right; left; exists co.
  move: (QR E1); case: (Hco) => -> -> /=. rewrite (minn_idPl (ltnW Hnc)) => -[Hj Hk PJ OJ].
  have [uj -> [Huj Euj]] := hstack_ok Hu Hj. rewrite /=.
  have [vi0 -> [Hvi0 Cvi0]] := set_block_ok (zeros 0 (q + nc) (r + nc)) 0 0 Hvt. rewrite /=.
  have [Hey Eey] := eye_ok R nc.
  have [vi -> [Hvi Cvi]] := set_block_ok vi0 q r Hey. rewrite /=.
  have [dq0 -> [Hdq0 Cdq0]] := set_block_ok (zeros 0 (r + nc) (r + nc)) 0 0 Hs'. rewrite /=.
  have [dq1 -> [Hdq1 Cdq1]] := set_block_ok dq0 0 r Hp. rewrite /=.
  case: (Hdq0) Hdq1 => -> -> [Hd1 Hd2].
  case Eb : (set_block 0 dq1 r nc r nc k) => [dq|e] /=.
    2:{ exists e => //. left. by move: Eb; rewrite /set_block; case: ifP => // _ [<-]. }
  have Hdq : shape (r + nc) (r + nc) dq.
    move: Eb; rewrite /set_block; case: ifP => // _ [<-]. by rewrite Hd1 Hd2.
  have Hm : m = 1%N.
    move: Eb; rewrite /set_block. case: ifP => // H _. case/andP: H => H _. move: H; rewrite (proj1 Hk) !eqb_eqn.
    by case/orP => /eqP // H; move: Hnc; rewrite H ltnn.
  rewrite /orth_err (proj2 Huj) Hm addn1 /=.
  set err := sum_upto _ _ _ _.
  have Hne : (r + m)%N <> (r + nc)%N by move=> H; move: Hnc; rewrite (addnI H) ltnn.
  case: (exceeds_eps _).
  - case E2 : (qr uj) => [[uj' k']|e] /=; last by exists e => //; right; left; exists uj.
    move: (QR E2); case: (Huj) => -> -> /= [Huj' [_ Hk'] P2 O2].
    rewrite dot_err; first by exists ValueError => //; left. rewrite Hk'. by case: Hdq => ->.
  - rewrite /=. case E : (rsvd dq r) => [[[u1 s2] vt1]|e] /=; last by exists e => //; right; right; exists dq.
    case: (RS E) => l; case: (Hdq) => -> -> [[Hu1 _] Hs2 Hvt1].
    rewrite dot_err; first by exists ValueError => //; left. rewrite Hu1. by case: Huj => _ ->.
Qed.
End Vec.
