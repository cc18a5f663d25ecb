(** Proofs for C38 and C41: the projector-splitting step and the randomised SVD. *)
From Verif Require Import Prelude Tensor_model Matrix_model Attention_model LinAlg_model.
Set Warnings "-notation-overridden".
From mathcomp Require Import all_ssreflect all_algebra.
From Verif Require Import LinAlg_spec LinAlg_bridge.
Set Implicit Arguments.
Unset Strict Implicit.
Unset Printing Implicit Defensive.
Import GRing.Theory.
Local Open Scope ring_scope.

Section Psi.
Variable R : comRingType.
Variable qr : mat R -> res (mat R * mat R).
Hypothesis QR : qr_ok qr.
Notation psi_step := (psi_step (0 : R) +%R *%R (fun x y => x - y) qr).

Lemma psi_step_main m n r (u : mat R) s vt da :
  shape m r u -> sshape r r s -> shape r n vt -> shape m n da ->
  match psi_step u s vt da with
  | Err e => exists x, qr x = Err e
  | Ok (u1, s1, v1t) =>
    let k := minn m r in let l := minn n k in
    let A0 := mx m r u *m smx r r s *m mx r n vt in
    let dA := mx m n da in
    let PV := (mx r n vt)^T *m mx r n vt in
    let PU := mx m k u1 *m (mx m k u1)^T in
    [/\ shape m k u1, shape k l s1, shape l n v1t,
        (mx m k u1)^T *m mx m k u1 = 1%:M /\ mx l n v1t *m (mx l n v1t)^T = 1%:M
      & (exists X, mx m r u *m smx r r s + dA *m (mx r n vt)^T = mx m k u1 *m X)
        /\ mx m k u1 *m mx k l s1 *m mx l n v1t = A0 + dA *m PV + PU *m dA - PU *m dA *m PV]
  end.
Proof.
  move=> Hu Hs Hv Hd; rewrite /LinAlg_model.psi_step.
  have [Hvt Evt] := transpose_ok Hv. have [Hs' Es'] := as_matrix_ok Hs.
  have [dav -> [Hdav Edav]] := dot_ok Hd Hvt.
  have [us -> [Hus Eus]] := dot_ok Hu Hs'. rewrite /=.
  have [k1 -> [Hk1 Ek1]] := madd_ok Hus Hdav. rewrite /=.
  case E1 : (qr k1) => [[u1 s1]|e] /=; last by exists k1.
  move: (QR E1); case: (Hk1) => -> -> /= [Hu1 Hs1 P1 O1]. set k := minn m r in Hu1 Hs1 P1 O1 *.
  have [Hu1t Eu1t] := transpose_ok Hu1.
  have [p -> [Hp Ep]] := dot_ok Hu1t Hdav. rewrite /=.
  have [s0 -> [Hs0 Es0]] := msub_ok Hs1 Hp. rewrite /=.
  have [Hs0t Es0t] := transpose_ok Hs0.
  have [a -> [Ha Ea]] := dot_ok Hvt Hs0t. rewrite /=.
  have [Hdt Edt] := transpose_ok Hd.
  have [b -> [Hb Eb]] := dot_ok Hdt Hu1. rewrite /=.
  have [l1 -> [Hl1 El1]] := madd_ok Ha Hb. rewrite /=.
  case E2 : (qr l1) => [[v1 s1t]|e] /=; last by exists l1.
  move: (QR E2); case: (Hl1) => -> -> /= [Hv1 Hs1t P2 O2]. set l := minn n k in Hv1 Hs1t P2 O2 *.
  have [Hv1t Ev1t] := transpose_ok Hv1. have [Hs1tt Es1tt] := transpose_ok Hs1t.
  split => //; first by split => //; rewrite Ev1t trmxK.
  split.
    by exists (mx k r s1); rewrite P1 Ek1 Eus Edav Evt Es'.
  rewrite -mulmxA Es1tt Ev1t -trmx_mul P2 El1 Ea Eb Evt Es0t Es0 Ep Eu1t Edav Evt Edt.
  rewrite linearD /= -trmx_mul trmxK trmx_mul trmxK mulmxDr mulmxBl mulmxBr !mulmxA P1 Ek1 Eus Edav Evt Es'.
  rewrite mulmxDl -!addrA; congr (_ + (_ + _)); exact: addrC.
Qed.

Lemma psi_step_exact_main m n r (u : mat R) s vt da u1 s1 v1t :
  shape m r u -> sshape r r s -> shape r n vt -> shape m n da ->
  psi_step u s vt da = Ok (u1, s1, v1t) ->
  let k := minn m r in let l := minn n k in
  let A0 := mx m r u *m smx r r s *m mx r n vt in
  let dA := mx m n da in
  let V := (mx r n vt)^T in
  let B := mx m k u1 *m mx k l s1 *m mx l n v1t in
  [/\ dA = 0 -> B = A0,
      dA *m V *m V^T = dA -> B = A0 + dA
    & V^T *m V = 1%:M -> (exists X, A0 + dA = (A0 + dA) *m V *m X) -> B = A0 + dA].
Proof.
  move=> Hu Hs Hv Hd E k l A0 dA V B. have := psi_step_main Hu Hs Hv Hd.
  rewrite E /= -/k -/l -/A0 -/dA -/V => -[_ _ _ [OU _]] [[X HX] HB].
  have EV : mx r n vt = V^T by rewrite /V trmxK.
  rewrite -/B in HB. split.
  - by move=> H0; rewrite HB H0 !mul0mx !mulmx0 !mul0mx subr0 !addr0.
  - move=> H1. have H1' : dA *m (V *m V^T) = dA by rewrite mulmxA.
    by rewrite HB EV H1' -(mulmxA _ dA) H1' addrK.
  - move=> OV [Y HY].
    have AV : (A0 + dA) *m V = mx m k u1 *m X.
      by rewrite -HX mulmxDl /A0 EV -!mulmxA OV mulmx1.
    set PU := mx m k u1 *m (mx m k u1)^T in HB.
    have PA : PU *m (A0 + dA) = A0 + dA.
      by rewrite HY AV /PU -!mulmxA (mulmxA _ (mx m k u1)) OU mul1mx.
    have A0V : A0 *m (V *m V^T) = A0.
      by rewrite /A0 EV -!mulmxA (mulmxA V^T) OV mul1mx.
    rewrite HB EV.
    have -> : PU *m dA = (A0 + dA) - PU *m A0 by rewrite -PA mulmxDr addrC addKr.
    rewrite mulmxBl mulmxDl A0V -(mulmxA PU) A0V.
    set d := dA *m _. set a := PU *m A0.
    rewrite opprB addrA. 
    have -> : A0 + d + (A0 + dA - a) + a = A0 + d + (A0 + dA) by rewrite -addrA subrK.
    by rewrite (addrC (A0 + d)) addrK.
Qed.
End Psi.

Section Rsvd.
Variable R : comRingType.
Variables (qr : mat R -> res (mat R * mat R)) (svd : mat R -> res (mat R * list R * mat R))
          (randn : nat -> nat -> mat R).
Hypotheses (QR : qr_ok qr) (SVD : svd_ok svd) (RND : randn_ok randn).
Notation random_svd_full := (random_svd_full (0 : R) +%R *%R qr svd randn).
Notation random_svd := (random_svd (0 : R) +%R *%R qr svd randn).

Lemma power_loop_ok m n k x z t : shape m n x -> shape m k z ->
  exists2 y, power_loop (0 : R) +%R *%R x z t = Ok y & shape m k y /\ mx m k y = powers (mx m n x) (mx m k z) t.
Proof.
  move=> Hx; elim: t z => [|t IH] z Hz; rewrite /powers /=; first by exists z.
  have [Hxt Ext] := transpose_ok Hx.
  have [a -> [Ha Ea]] := dot_ok Hxt Hz. rewrite /=.
  have [b -> [Hb Eb]] := dot_ok Hx Ha. rewrite /=.
  have [y -> [Hy Ey]] := IH b Hb. exists y => //; split => //. by rewrite Ey Eb Ea Ext /powers -iterSr.
Qed.

Lemma random_svd_full_main m n x rank npow os : shape m n x ->
  match random_svd_full x rank npow os with
  | Err e => exists y, qr y = Err e \/ svd y = Err e
  | Ok (u, s, vt) =>
    let K := minn m (rank + os) in let k := minn K n in
    exists q : 'M[R]_(m, K),
    [/\ q^T *m q = 1%:M,
        exists T, powers (mx m n x) (mx m n x *m mx n (rank + os) (randn n (rank + os))) npow = q *m T,
        [/\ shape m k u, size s = k, shape k n vt & exists y uy, svd y = Ok (uy, s, vt)],
        mx m k u *m dg k s *m mx k n vt = q *m q^T *m mx m n x
      & (mx m k u)^T *m mx m k u = 1%:M /\ mx k n vt *m (mx k n vt)^T = 1%:M]
  end.
Proof.
  move=> Hx; rewrite /LinAlg_model.random_svd_full plusE. case: (Hx) => _ ->.
  have [z0 -> [Hz0 Ez0]] := dot_ok Hx (RND n (rank + os)%N). rewrite /=.
  have [z -> [Hz Ez]] := power_loop_ok npow Hx Hz0. rewrite /=.
  case E1 : (qr z) => [[q r]|e] /=; last by exists z; left.
  move: (QR E1); case: (Hz) => -> -> /= [Hq Hr P1 O1]. set K := minn m (rank + os) in Hq Hr P1 O1 *.
  have [Hqt Eqt] := transpose_ok Hq.
  have [y -> [Hy Ey]] := dot_ok Hqt Hx. rewrite /=.
  case E2 : (svd y) => [[[uy s] vt]|e] /=; last by exists y; right.
  move: (SVD E2); case: (Hy) => -> -> /= [Huy Hs Hvt P2 [O2 O3]]. set k := minn K n in Huy Hs Hvt P2 O2 O3 *.
  have [u -> [Hu Eu]] := dot_ok Hq Huy. rewrite /=.
  exists (mx m K q); split => //.
  - by exists (mx K (rank + os) r); rewrite P1 Ez Ez0.
  - by split=> //; exists y, uy.
  - by rewrite Eu -!mulmxA; congr (_ *m _); rewrite mulmxA P2 Ey Eqt.
  - split => //. by rewrite Eu trmx_mul mulmxA -(mulmxA _ (mx m K q)^T) O1 mulmx1.
Qed.

Lemma prod3E m k n (u : mat R) (s : list R) (v : mat R) i j :
  (mx m k u *m dg k s *m mx k n v) i j = \sum_(t < k) mget 0 u i t * nth 0 s t * mget 0 v t j.
Proof.
  rewrite !mxE; apply: eq_bigr => t _; rewrite mul_mx_diag !mxE. by [].
Qed.

Lemma prod3_take m k l n (u : mat R) (s : list R) (v : mat R) : (l <= k)%N ->
  (forall t, (l <= t)%N -> nth 0 s t = 0) ->
  mx m l u *m dg l s *m mx l n v = mx m k u *m dg k s *m mx k n v.
Proof.
  move=> Hl Z; apply/matrixP => i j; rewrite !prod3E.
  rewrite (big_ord_widen _ (fun t => mget 0 u i t * nth 0 s t * mget 0 v t j) Hl).
  rewrite big_mkcond; apply: eq_bigr => t _; case: ltnP => // /Z ->. by rewrite mulr0 mul0r.
Qed.

Lemma orth_cols m k l (u : mat R) : (l <= k)%N ->
  (mx m k u)^T *m mx m k u = 1%:M -> (mx m l u)^T *m mx m l u = 1%:M.
Proof.
  move=> Hl /matrixP O; apply/matrixP => i j. have := O (widen_ord Hl i) (widen_ord Hl j).
  rewrite !mxE -!val_eqE /= => <-; apply: eq_bigr => t _. by rewrite !mxE.
Qed.

Lemma orth_rows k l n (v : mat R) : (l <= k)%N ->
  mx k n v *m (mx k n v)^T = 1%:M -> mx l n v *m (mx l n v)^T = 1%:M.
Proof.
  move=> Hl /matrixP O; apply/matrixP => i j. have := O (widen_ord Hl i) (widen_ord Hl j).
  rewrite !mxE -!val_eqE /= => <-; apply: eq_bigr => t _. by rewrite !mxE.
Qed.

Lemma random_svd_main m n x rank npow os : shape m n x ->
  match random_svd x rank npow os with
  | Err e => exists y, qr y = Err e \/ svd y = Err e
  | Ok (u, s, vt) =>
    let K := minn m (rank + os) in let k := minn K n in let l := minn rank k in
    let sampled := powers (mx m n x) (mx m n x *m mx n (rank + os) (randn n (rank + os))) npow in
    exists (q : 'M[R]_(m, K)) (uf : mat R) (sf : list R) (vf : mat R),
    [/\ q^T *m q = 1%:M, exists T, sampled = q *m T,
        [/\ size sf = k, mx m k uf *m dg k sf *m mx k n vf = q *m q^T *m mx m n x & exists y uy, svd y = Ok (uy, sf, vf)],
        (mx m k uf)^T *m mx m k uf = 1%:M /\ mx k n vf *m (mx k n vf)^T = 1%:M
      & [/\ shape m l u, s = take rank sf, shape l n vt, mx m l u = mx m l uf & mx l n vt = mx l n vf]]
  end.
Proof.
  move=> Hx. have := random_svd_full_main rank npow os Hx. rewrite /LinAlg_model.random_svd.
  case: (LinAlg_model.random_svd_full _ _ _ _ _ _ _ _ _ _) => [[[u s] vt]|e] //= [q [O T [Hu Hs Hv SY] P [OU OV]]].
  set K := minn m (rank + os) in q O T Hu Hs Hv P OU OV *. set k := minn K n in Hu Hs Hv P OU OV *.
  exists q, u, s, vt; split => //.
  have F : shape m (minn rank k) (first_cols 0 rank u).
    by case: Hu => H1 H2; rewrite /first_cols min_minn H1 H2.
  have G : shape (minn rank k) n (first_rows 0 rank vt).
    by case: Hv => H1 H2; rewrite /first_rows min_minn H1 H2.
  split => //; first by rewrite firstn_take.
  - apply/matrixP => i j; rewrite !mxE /first_cols. case: Hu => -> ->. rewrite min_minn. by rewrite build_mget.
  - apply/matrixP => i j; rewrite !mxE /first_rows. case: Hv => -> ->. rewrite min_minn. by rewrite build_mget.
Qed.

Lemma random_svd_exact_main m n x rank npow os u s vt : shape m n x ->
  random_svd x rank npow os = Ok (u, s, vt) ->
  let l := minn rank (minn (minn m (rank + os)) n) in
  let sampled := powers (mx m n x) (mx m n x *m mx n (rank + os) (randn n (rank + os))) npow in
  let B := mx m l u *m dg l s *m mx l n vt in
  [/\ [/\ shape m l u, size s = l & shape l n vt],
      (mx m l u)^T *m mx m l u = 1%:M /\ mx l n vt *m (mx l n vt)^T = 1%:M,
      (m <= rank)%N -> B = mx m n x
    & (n <= rank)%N -> (exists Y, mx m n x = sampled *m Y) -> B = mx m n x].
Proof.
  move=> Hx E l sampled B. have := random_svd_main rank npow os Hx. rewrite E /= -/l -/sampled.
  set K := minn m (rank + os). set k := minn K n.
  move=> [q [uf [sf [vf [O [T HT] [Hsf P _] [OU OV] [Hu Es Hv Eu Ev]]]]]].
  have Hl : (l <= k)%N by rewrite /l geq_minr.
  have Hs : size s = l by rewrite Es size_take Hsf.
  have EB : (k <= rank)%N -> B = q *m q^T *m mx m n x.
    move=> H. have lk : l = k by rewrite /l -/K -/k (minn_idPr H).
    have Es' : s = sf by rewrite Es take_oversize // Hsf.
    rewrite -P /B Eu Ev Es'. apply: prod3_take => // t Ht. by rewrite nth_default // Hsf -lk.
  split => //.
  - by split; [rewrite Eu; apply: orth_cols OU|rewrite Ev; apply: orth_rows OV].
  - move=> H. rewrite EB; last by rewrite (leq_trans _ H) // (leq_trans (geq_minl _ _)) // geq_minl.
    have KE : K = m by apply/minn_idPl; rewrite (leq_trans H) // leq_addr.
    have -> : q *m q^T = 1%:M.
      move: q O {HT P EB}; rewrite -/K KE => q O. exact: mulmx1C.
    by rewrite mul1mx.
  - move=> H [Y HY]. rewrite EB; last by rewrite (leq_trans _ H) // geq_minr.
    by rewrite HY HT !mulmxA -(mulmxA q) O mulmx1.
Qed.
End Rsvd.
