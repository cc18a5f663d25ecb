(** Proofs for C40: appending a diagonal block to a decomposition. *)
From Verif Require Import Prelude Tensor_model Matrix_model Attention_model LinAlg_model.
Set Warnings "-notation-overridden".
From mathcomp Require Import all_ssreflect all_algebra.
From Verif Require Import LinAlg_spec LinAlg_bridge LinAlg_psi.
Set Implicit Arguments.
Unset Strict Implicit.
Unset Printing Implicit Defensive.
Import GRing.Theory.
Local Open Scope ring_scope.

Section Block.
Variable R : comRingType.
Variables (svd : mat R -> res (mat R * list R * mat R)) (rsvd : mat R -> nat -> res (mat R * list R * mat R))
          (argsort : list R -> list nat) (le : R -> R -> bool).
Hypotheses (SVD : svd_ok svd) (RS : rsvd_ok rsvd) (AS : argsort_ok le argsort).
Notation update := (update_svd_new_submatrix (0 : R) +%R *%R svd rsvd argsort).

Lemma smx_vec r (v : list R) : smx r r (SVec v) = dg r v.
Proof. by apply/matrixP => i j; rewrite !mxE. Qed.

Lemma dg_cat r k (s s1 : list R) : size s = r -> size s1 = k ->
  dg (r + k) (s ++ s1) = block_mx (dg r s) 0 0 (dg k s1).
Proof.
  move=> Hs Hs1; apply/matrixP => i j; rewrite !mxE nth_cat Hs.
  case: (splitP i) => i' Ei; rewrite mxE; case: (splitP j) => j' Ej; rewrite !mxE -val_eqE /= Ei Ej ?ltn_ord.
  - by rewrite -val_eqE.
  - by rewrite (ltn_eqF (leq_trans (ltn_ord i') (leq_addr _ _))).
  - by rewrite eq_sym (ltn_eqF (leq_trans (ltn_ord j') (leq_addr _ _))).
  - rewrite ?addKn eqn_add2l val_eqE. by [].
Qed.

Lemma block_prod m r n a k b (U : 'M[R]_(m, r)) (S : 'M_r) (V : 'M_(r, n)) (U1 : 'M_(a, k)) (S1 : 'M_k) (V1 : 'M_(k, b)) :
  block_mx U 0 0 U1 *m block_mx S 0 0 S1 *m block_mx V 0 0 V1 = block_mx (U *m S *m V) 0 0 (U1 *m S1 *m V1).
Proof. by rewrite !(mulmx_block, mulmx0, mul0mx, addr0, add0r). Qed.

Lemma block_orth m r a k (U : 'M[R]_(m, r)) (U1 : 'M_(a, k)) :
  U^T *m U = 1%:M -> U1^T *m U1 = 1%:M -> (block_mx U 0 0 U1)^T *m block_mx U 0 0 U1 = 1%:M.
Proof.
  move=> O O1. by rewrite tr_block_mx !trmx0 mulmx_block !(mulmx0, mul0mx) O O1 !addr0 add0r -scalar_mx_block.
Qed.

(** Values kept: the [r] largest. *)
Lemma mask_ok (s2 : list R) r k : size s2 = (r + k)%N ->
  let idx := take r (rev (argsort s2)) in let rest := drop r (rev (argsort s2)) in
  [/\ size idx = r, perm_eq (idx ++ rest) (iota 0 (r + k)),
      forall x y, x \in idx -> y \in rest -> le (nth 0 s2 y) (nth 0 s2 x)
    & forall i j, (i < j < r)%N -> le (nth 0 s2 (nth 0%N idx j)) (nth 0 s2 (nth 0%N idx i))].
Proof.
  move=> Hs idx rest. have [P Srt] := AS s2. rewrite Hs in P Srt.
  have Sz : size (argsort s2) = (r + k)%N by rewrite (perm_size P) size_iota.
  have Si : size idx = r by rewrite size_take size_rev Sz; case: ltnP => // H; apply/eqP; rewrite eqn_leq leq_addr H.
  have Key : forall i j, (i < j < r + k)%N ->
     le (nth 0 s2 (nth 0%N (rev (argsort s2)) j)) (nth 0 s2 (nth 0%N (rev (argsort s2)) i)).
    move=> i j /andP [Hij Hj]. rewrite !nth_rev ?Sz ?(ltn_trans Hij) //. apply: Srt.
    apply/andP; split; first by apply: ltn_sub2l; rewrite ?ltnS // (leq_ltn_trans _ Hj).
    by rewrite ltn_subrL (leq_ltn_trans _ Hj).
  split => //.
  - by rewrite cat_take_drop perm_rev.
  - move=> x y Hx Hy. have Hi : (index x idx < r)%N by move: Hx; rewrite -index_mem Si.
    have Hj : (index y rest < k)%N by move: Hy; rewrite -index_mem size_drop size_rev Sz addKn.
    rewrite -(nth_index 0%N Hx) -(nth_index 0%N Hy) nth_take // nth_drop. apply: Key.
    by rewrite ltn_add2l Hj andbT (leq_trans Hi) // leq_addr.
  - move=> i j /andP [Hij Hj]. rewrite !nth_take ?(ltn_trans Hij) //. apply: Key. by rewrite Hij (leq_trans Hj) // leq_addr.
Qed.

Lemma update_vec_main m r n a b u s vt nm :
  shape m r u -> size s = r -> shape r n vt -> shape a b nm ->
  match update u (SVec s) vt nm with
  | Err e => svd nm = Err e
  | Ok (u2, s2, v2t) =>
    let k := minn a b in
    let A := mx m r u *m dg r s *m mx r n vt in
    exists u1 s1 v1t, svd nm = Ok (u1, s1, v1t) /\
    let U := block_mx (mx m r u) 0 0 (mx a k u1) in
    let V := block_mx (mx r n vt) 0 0 (mx k b v1t) in
    exists idx rest,
    [/\ [/\ shape (m + a) r u2, size s2 = r & shape r (n + b) v2t],
        [/\ perm_eq (idx ++ rest) (iota 0 (r + k)), size idx = r,
            forall x y, x \in idx -> y \in rest -> le (nth 0 (s ++ s1) y) (nth 0 (s ++ s1) x)
          & forall i j, (i < j < r)%N -> le (nth 0 s2 j) (nth 0 s2 i)],
        [/\ forall i j (t : 'I_(r + k)), (j < r)%N -> nth 0%N idx j = t -> mget 0 u2 (i : 'I_(m + a)) j = U i t,
            forall j, (j < r)%N -> nth 0 s2 j = nth 0 (s ++ s1) (nth 0%N idx j)
          & forall i j (t : 'I_(r + k)), (j < r)%N -> nth 0%N idx j = t -> mget 0 v2t j (i : 'I_(n + b)) = V t i],
        U *m dg (r + k) (s ++ s1) *m V = block_mx A 0 0 (mx a b nm)
      & [/\ (forall y, y \in rest -> nth 0 (s ++ s1) y = 0) ->
             mx (m + a) r u2 *m dg r s2 *m mx r (n + b) v2t = block_mx A 0 0 (mx a b nm),
            (mx m r u)^T *m mx m r u = 1%:M -> (mx (m + a) r u2)^T *m mx (m + a) r u2 = 1%:M
          & mx r n vt *m (mx r n vt)^T = 1%:M -> mx r (n + b) v2t *m (mx r (n + b) v2t)^T = 1%:M]]
  end.
Proof.
  move=> Hu Hs Hv Hn. rewrite /update_svd_new_submatrix.
  case E : (svd nm) => [[[u1 s1] v1t]|e] //=.
  move: (SVD E); case: (Hn) => -> -> /=. set k := minn a b. move=> [Hu1 Hs1 Hv1 P [OU OV]].
  have [Hvt Evt] := transpose_ok Hv. have [Hv1t Ev1t] := transpose_ok Hv1.
  have [Hub Eub] := block_diag_ok Hu Hu1. have [Hvb Evb] := block_diag_ok Hvt Hv1t.
  have Hs2 : size (s ++ s1) = (r + k)%N by rewrite size_cat Hs Hs1.
  have [Hidx Pidx Hkeep Hord] := mask_ok Hs2.
  case: (Hu) => _ ->. rewrite firstn_take rev_rev.
  set idx := take r _ in Hidx Pidx Hkeep Hord *. set rest := drop r _ in Pidx Hkeep.
  have Hall : all (fun j => (j < r + k)%N) idx.
    apply/allP => x Hx. have : x \in idx ++ rest by rewrite mem_cat Hx.
    by rewrite (perm_mem Pidx) mem_iota.
  have [u2 -> [Hu2 Cu2]] := take_cols_ok Hub Hall. rewrite /=.
  have -> : take_vals (s ++ s1)%list idx = Ok [seq nth 0 (s ++ s1) i | i <- idx] by apply: take_vals_ok; rewrite Hs2.
  have [v2 -> [Hv2 Cv2]] := take_cols_ok Hvb Hall. rewrite /=.
  have [Hv2t Ev2t] := transpose_ok Hv2. rewrite Hidx in Hu2 Cu2 Hv2 Cv2 Hv2t Ev2t.
  exists u1, s1, v1t; split => //. exists idx, rest.
  have Evb' : (mx (n + b) (r + k) (block_diag 0 (transpose 0 vt) (transpose 0 v1t)))^T
             = block_mx (mx r n vt) 0 0 (mx k b v1t).
    by rewrite Evb tr_block_mx Evt Ev1t !trmxK !trmx0.
  have Cv2t : forall j i, (j < r)%N -> (i < n + b)%N ->
     mget 0 (transpose 0 v2) j i = mget 0 (block_diag 0 (transpose 0 vt) (transpose 0 v1t)) i (nth 0%N idx j).
    move=> j i Hj Hi. have /matrixP/(_ (Ordinal Hj) (Ordinal Hi)) := Ev2t. rewrite !mxE /= => ->. exact: Cv2.
  have Full : block_mx (mx m r u) 0 0 (mx a k u1) *m dg (r + k) (s ++ s1) *m block_mx (mx r n vt) 0 0 (mx k b v1t)
     = block_mx (mx m r u *m dg r s *m mx r n vt) 0 0 (mx a b nm).
    by rewrite dg_cat // block_prod P.
  split => //.
  - by split => //; rewrite size_map.
  - by split => // i j Hij; rewrite !(nth_map 0%N) ?Hidx ?(andP Hij).2 //; [exact: Hord|case/andP: Hij => H1 H2; apply: ltn_trans H2].
  - split.
    + move=> i j t Hj Ht. by rewrite Cu2 // Ht -Eub mxE.
    + by move=> j Hj; rewrite (nth_map 0%N) // Hidx.
    + move=> i j t Hj Ht. by rewrite Cv2t // Ht -Evb' !mxE.
  have SumIdx : forall F : nat -> R, \sum_(t < r) F (nth 0%N idx t) = \sum_(x <- idx) F x.
    by move=> F; rewrite (big_nth 0%N) Hidx big_mkord.
  have Hin : forall t : 'I_r, nth 0%N idx t \in idx by move=> t; rewrite mem_nth // Hidx.
  have Hlt : forall t : 'I_r, (nth 0%N idx t < r + k)%N by move=> t; apply: (allP Hall).
  have Uq : uniq idx.
    have : uniq (idx ++ rest) by rewrite (perm_uniq Pidx) iota_uniq.
    by rewrite cat_uniq => /andP [].
  split.
  - move=> Hz. rewrite -Full -Eub -Evb'. apply/matrixP => i j. rewrite prod3E.
    set F := fun x => mget 0 (block_diag 0 u u1) i x * nth 0 (s ++ s1) x * mget 0 (block_diag 0 (transpose 0 vt) (transpose 0 v1t)) j x.
    transitivity (\sum_(x <- idx) F x).
      rewrite -SumIdx. apply: eq_bigr => t _. rewrite Cu2 // Cv2t // (nth_map 0%N) ?Hidx //.
    transitivity (\sum_(x <- idx ++ rest) F x).
      rewrite big_cat /= [X in _ + X]big_seq [X in _ + X]big1 ?addr0 // => x Hx. by rewrite /F Hz // mulr0 mul0r.
    rewrite (perm_big _ Pidx) /= -[X in iota 0 X]subn0 -/(index_iota 0 (r + k)) big_mkord.
    rewrite mxE; apply: eq_bigr => t _. by rewrite mul_mx_diag !mxE.
  - move=> O. have /matrixP OO := block_orth O OU. rewrite -Eub in OO.
    apply/matrixP => i j. have := OO (Ordinal (Hlt i)) (Ordinal (Hlt j)).
    rewrite !mxE -!val_eqE /= nth_uniq ?Hidx // => <-. apply: eq_bigr => t _. by rewrite !mxE !Cu2.
  - move=> O. have O' : ((mx r n vt)^T)^T *m (mx r n vt)^T = 1%:M by rewrite trmxK.
    have OV' : ((mx k b v1t)^T)^T *m (mx k b v1t)^T = 1%:M by rewrite trmxK.
    have /matrixP OO := block_orth O' OV'. rewrite -Evt -Ev1t -Evb in OO.
    apply/matrixP => i j. have := OO (Ordinal (Hlt i)) (Ordinal (Hlt j)).
    rewrite !mxE -!val_eqE /= nth_uniq ?Hidx // => <-. apply: eq_bigr => t _. by rewrite !mxE !Cv2t.
Qed.

Lemma update_mat_main m r l n a b u s vt nm :
  shape m r u -> shape r l s -> shape l n vt -> shape a b nm ->
  match update u (SMat s) vt nm with
  | Err e => svd nm = Err e \/ exists x, rsvd x r = Err e
  | Ok (u2, s2, v2t) =>
    let k := minn a b in
    let A := mx m r u *m mx r l s *m mx l n vt in
    exists d u1 v1t (L : 'M[R]_(m + a, r + k)) (W : 'M[R]_(l + k, n + b)) c,
    [/\ rsvd d r = Ok (u1, s2, v1t) /\ shape (r + k) (l + k) d,
        [/\ shape (m + a) c u2, size s2 = c & shape c (n + b) v2t],
        mx (m + a) c u2 *m dg c s2 *m mx c (n + b) v2t - block_mx A 0 0 (mx a b nm)
        = L *m (mx (r + k) c u1 *m dg c s2 *m mx c (l + k) v1t - mx (r + k) (l + k) d) *m W,
        mx (r + k) c u1 *m dg c s2 *m mx c (l + k) v1t = mx (r + k) (l + k) d ->
        mx (m + a) c u2 *m dg c s2 *m mx c (n + b) v2t = block_mx A 0 0 (mx a b nm)
      & ((mx m r u)^T *m mx m r u = 1%:M -> (mx (r + k) c u1)^T *m mx (r + k) c u1 = 1%:M ->
         (mx (m + a) c u2)^T *m mx (m + a) c u2 = 1%:M) /\
        (mx l n vt *m (mx l n vt)^T = 1%:M -> mx c (l + k) v1t *m (mx c (l + k) v1t)^T = 1%:M ->
         mx c (n + b) v2t *m (mx c (n + b) v2t)^T = 1%:M) /\
        ((mx m r u)^T *m mx m r u = 1%:M -> mx l n vt *m (mx l n vt)^T = 1%:M ->
         mx (r + k) (l + k) d = L^T *m block_mx A 0 0 (mx a b nm) *m W^T)]
  end.
Proof.
  move=> Hu Hs Hv Hn. rewrite /update_svd_new_submatrix.
  case E : (svd nm) => [[[u1 s1] v1t]|e] /=; last by left.
  move: (SVD E); case: (Hn) => -> -> /=. set k := minn a b. move=> [Hu1 Hs1 Hv1 P [OU OV]].
  have [Hvt Evt] := transpose_ok Hv. have [Hv1t Ev1t] := transpose_ok Hv1.
  have [Hub Eub] := block_diag_ok Hu Hu1. have [Hvb Evb] := block_diag_ok Hvt Hv1t.
  have [Hd Ed] := diag_ok Hs1. have [Hsb Esb] := block_diag_ok Hs Hd.
  case: (Hu) => _ ->. case E2 : (rsvd _ r) => [[[u' s'] vt']|e] /=; last by right; eexists; exact: E2.
  case: (RS E2) => c; case: (Hsb) => -> -> [Hu' Hs' Hvt'].
  have [u2 -> [Hu2 Eu2]] := dot_ok Hub Hu'. rewrite /=.
  have [Hvt't Evt't] := transpose_ok Hvt'.
  have [v2 -> [Hv2 Ev2]] := dot_ok Hvb Hvt't. rewrite /=.
  have [Hv2t Ev2t] := transpose_ok Hv2.
  set L := block_mx (mx m r u) 0 0 (mx a k u1). set W := block_mx (mx l n vt) 0 0 (mx k b v1t).
  have EW : mx c (n + b) (transpose 0 v2) = mx c (l + k) vt' *m W.
    by rewrite Ev2t Ev2 Evt't trmx_mul trmxK Evb tr_block_mx Evt Ev1t !trmxK !trmx0.
  have EF : L *m mx (r + k) (l + k) (block_diag 0 s (np_diag 0 s1)) *m W = block_mx (mx m r u *m mx r l s *m mx l n vt) 0 0 (mx a b nm).
    by rewrite Esb Ed /L /W !(mulmx_block, mulmx0, mul0mx, addr0, add0r) P.
  have EQ : mx (m + a) c u2 *m dg c s' *m mx c (n + b) (transpose 0 v2) - block_mx (mx m r u *m mx r l s *m mx l n vt) 0 0 (mx a b nm)
     = L *m (mx (r + k) c u' *m dg c s' *m mx c (l + k) vt' - mx (r + k) (l + k) (block_diag 0 s (np_diag 0 s1))) *m W.
    by rewrite Eu2 Eub -/L EW mulmxBr mulmxBl EF !mulmxA.
  exists (block_diag 0 s (np_diag 0 s1)), u', vt', L, W, c; split => //.
  - move=> EI. apply/eqP. by rewrite -subr_eq0 EQ EI subrr mulmx0 mul0mx.
  - have OW : mx l n vt *m (mx l n vt)^T = 1%:M -> W *m W^T = 1%:M.
      move=> O. by rewrite /W tr_block_mx !trmx0 !(mulmx_block, mulmx0, mul0mx, addr0, add0r) O OV -scalar_mx_block.
    split; last split.
    + move=> O O'. by rewrite Eu2 Eub trmx_mul mulmxA -(mulmxA _ (block_mx _ _ _ _)^T) block_orth // mulmx1.
    + move=> O O'. by rewrite EW trmx_mul mulmxA -(mulmxA _ W) OW // mulmx1.
    + move=> O O'. by rewrite -EF !mulmxA block_orth // mul1mx -mulmxA OW // mulmx1.
Qed.
End Block.
