(** Proofs for update_tucker_new_vectors. *)
From Verif Require Import Prelude Tensor_model Tensor_spec Matrix_model Attention_model LinAlg_model Hooi_model Upd_model.
Set Warnings "-notation-overridden".
From mathcomp Require Import all_ssreflect all_algebra.
From Verif Require Import LinAlg_spec LinAlg_bridge LinAlg_psi LinAlg_vectors Tucker_spec Tucker_bridge Tucker_main
  Hooi_spec Hooi_bridge Upd_spec Upd_vec.
Set Implicit Arguments.
Unset Strict Implicit.
Unset Printing Implicit Defensive.
Import GRing.Theory.
Local Open Scope ring_scope.

Section Parts.
Variable R : comRingType.

Lemma rep3_unf mode n a b nn rn na ra nb rb (fs : @factors R) core : modes mode n a b ->
  factors_at n a b nn rn na ra nb rb fs core ->
  unf n a nn na nb (rep3 fs core)
  = mx nn rn (factor fs n) *m unf n a rn ra rb (tget 0 core) *m (krn (mx na ra (factor fs a)) (mx nb rb (factor fs b)))^T.
Proof.
  case=> -[Hn Ha Hb W S].
  - exact: rep_unf0.
  - exact: (rep_unf1 core Ha Hn Hb).
  - exact: (rep_unf2 core Ha Hb Hn).
Qed.

Lemma set_factor_at mode n a b (fs : @factors R) x : modes mode n a b ->
  [/\ factor (set_factor fs n x) n = x, factor (set_factor fs n x) a = factor fs a & factor (set_factor fs n x) b = factor fs b].
Proof. by case. Qed.

Lemma scale_ok k n (s : list R) (x : mat R) : size s = k -> shape k n x ->
  exists2 y, broadcast 0 *%R (mkMat (length s) 1 s) x = Ok y & shape k n y /\ mx k n y = dg k s *m mx k n x.
Proof.
  move=> Sk [Hr Hc]. rewrite /broadcast /= length_size Sk Hr Hc /bdim !eqb_eqn eqxx /=.
  have -> : (if (1 == n)%N then Ok 1%N else Ok n) = Ok n by case: eqP => // ->. 
  rewrite /=. eexists; first by []. split=> //. apply/matrixP => i j. rewrite mul_diag_mx !mxE build_mget //.
  rewrite /bget /= !eqb_eqn Hr Hc.
  have -> : (if k == 1%N then 0%N else val i) = i by case: eqP (ltn_ord i) => // E; rewrite [X in (_ < X)%N]E; case: (val i).
  have -> : (if n == 1%N then 0%N else val j) = j by case: eqP (ltn_ord j) => // E; rewrite [X in (_ < X)%N]E; case: (val j).
  by rewrite /Tensor_model.mget /= nth_nth multE plusE muln1 addn0.
Qed.

Lemma smx_dg k (s : list R) : smx k k (SVec s) = dg k s.
Proof. by apply/matrixP => i j; rewrite !mxE. Qed.

Lemma truncated_rsvd (rsvd : mat R -> nat -> res (mat R * list R * mat R)) : truncated_ok rsvd -> rsvd_ok rsvd.
Proof. by move=> T x r u s vt /T [/= ? ? ? _ _]; eexists; split; eassumption. Qed.
End Parts.

Section New.
Variable R : comRingType.
Variables (qr : mat R -> res (mat R * mat R)) (svds : linop R -> nat -> res (mat R * list R * mat R)).
Variables rsvd1 rsvd2 : mat R -> nat -> res (mat R * list R * mat R).
Variable exceeds_eps : R -> bool.
Hypotheses (QR : qr_ok qr) (SVDS : svds_op_ok svds) (T1 : truncated_ok rsvd1) (T2 : truncated_ok rsvd2).
Notation update := (update_tucker_new_vectors (0 : R) 1 +%R *%R (fun x y => x - y) qr svds rsvd1 rsvd2 exceeds_eps).

Lemma new_vectors_main explicit mode n a b nn rn na ra nb rb c (fs : @factors R) core nv :
  modes mode n a b -> factors_at n a b nn rn na ra nb rb fs core -> shape c (na * nb) nv ->
  (0 < rn)%N -> (rn <= na * nb)%N -> (c <= na * nb)%N ->
  orthonormal na ra (factor fs a) -> orthonormal nb rb (factor fs b) ->
  let N := (na * nb)%N in
  let K := krn (mx na ra (factor fs a)) (mx nb rb (factor fs b)) in
  let P := krn (proj na ra (factor fs a)) (proj nb rb (factor fs b)) in
  let Y := K *m (unf n a rn ra rb (tget 0 core))^T in
  match update explicit fs core nv n with
  | Err e => (exists x, qr x = Err e) \/ (exists op k, svds op k = Err e) \/
             (exists x r, rsvd1 x r = Err e) \/ (exists x r, rsvd2 x r = Err e)
  | Ok (fs', core') =>
    [/\ factors_at n a b (nn + c) rn na ra nb rb fs' core', factor fs' a = factor fs a /\ factor fs' b = factor fs b,
        tshape core' = tshape core, orthonormal nn rn (factor fs n) -> orthonormal (nn + c) rn (factor fs' n)
      & (explicit -> forall x t, shape N rn x -> mx N rn x = Y -> rsvd1 x rn = Ok t -> product N rn rn t = Y) ->
        exists p dq t (L : 'M[R]_(N, p)) (W : 'M[R]_(rn + c, nn + c)),
        [/\ rsvd2 dq rn = Ok t, shape p (rn + c) dq, orthonormal nn rn (factor fs n) -> W *m W^T = 1%:M /\
              exists M : 'M_(p, N), mx p (rn + c) dq = M *m (col_mx (mx nn rn (factor fs n) *m Y^T) (mx c N nv))^T *m W^T,
            L *m mx p (rn + c) dq *m W = (col_mx (mx nn rn (factor fs n) *m Y^T) (mx c N nv))^T
          & unf n a (nn + c) na nb (rep3 fs' core') - col_mx (unf n a nn na nb (rep3 fs core)) (mx c N nv *m P)
            = (L *m (product p rn (rn + c) t - mx p (rn + c) dq) *m W)^T *m P]]
  end.
Proof.
  move=> M FA Hnv Hpos Hrn Hc Oa Ob N K P Y. case: (FA) => Hn Ha Hb Wf [Sn Sa Sb].
  have EM : BinInt.Z.of_nat n = mode by case: M.
  rewrite /update_tucker_new_vectors EM (others_modes M).
  have -> : PeanoNat.Nat.ltb 2 n = false by case: M.
  have [cu -> [Hcu Ecu]] := unfold_ok Wf M Sn Sa Sb. rewrite /= Sn.
  have := first_svd_ok SVDS T1 explicit Hcu Ha Hb Hrn. rewrite /= Ecu -/K -/Y -/N.
  set w_v := np_kron _ _ _ _.
  case: (unfolding_svd _ _ _ _ _ _ _ _ _ _ _) => [[[v1t s1] u1]|e] /=; last first.
    by case=> H; [right; left|right; right; left].
  move=> [[Hv1 Hs1 Hu1 Ov1 Ou1] FIRST].
  have [fu -> [Hfu Efu]] := dot_ok Hn Hu1. rewrite /=.
  have [Hv1t Ev1t] := transpose_ok Hv1. have [Hfut Efut] := transpose_ok Hfu. have [Hnvt Envt] := transpose_ok Hnv.
  have := update_main exceeds_eps QR (truncated_rsvd T2) (s := SVec s1) Hv1t (conj Hs1 Hs1) Hfut Hnvt Hc (ltn_addr c Hpos). rewrite smx_dg Ev1t Efut Envt trmxK.
  case: (update_svd_new_vectors _ _ _ _ _ _ _ _ _ _ _ _) => [[[v2 s2] u2]|e] /=; last first.
    by case=> [H|[x H]]; [left|right; right; right; exists x, rn].
  move=> -[p [dq [u' [vt' [L [W [l [[E Hdq Hp] PR [Hv2 Hs2 Hu2 Hu' Hvt'] [Ev2 Eu2] [OW [_ [LOW _]]]]]]]]]]].
  have EL : l = rn.
    have := T2 E. rewrite (proj1 Hdq) (proj2 Hdq) => -[/= [_ X] _ _ _ _]. rewrite -(proj2 Hu') X. 
    apply/minn_idPl. rewrite leq_min leq_addr andbT. case/andP: Hp => Hp _. apply: leq_trans Hp.
    by rewrite leq_min Hrn leq_addr.
  rewrite {l}EL in Hv2 Hs2 Hu2 Hu' Hvt' Ev2 Eu2.
  have [Hv2t Ev2t] := transpose_ok Hv2. have [Hu2t Eu2t] := transpose_ok Hu2.
  have [sv -> [Hsv Esv]] := scale_ok Hs2 Hv2t. rewrite /=.
  have [Hat Eat] := transpose_ok Ha. have [Hbt Ebt] := transpose_ok Hb.
  have [Hw Ew] := kron_ok Hbt Hat. rewrite -/w_v in Hw Ew. have [Hwt Ewt] := transpose_ok Hw.
  have [cc Ecc [Hcc Ecc']] := dot_ok Hsv Hwt. rewrite Ecc /=.
  have [core' -> [Wf' S' E']] := fold_ok (dot_mwf Ecc) M Sn Sa Sb Hcc. rewrite /=.
  have [F1 F2 F3] := set_factor_at fs (transpose 0 u2) M.
  have FA' : factors_at n a b (nn + c) rn na ra nb rb (set_factor fs n (transpose 0 u2)) core'.
    by split; rewrite ?F1 ?F2 ?F3 ?S'.
  split=> //.
  - rewrite F1 /orthonormal Eu2t trmxK => On.
    have [_ _ _ _ Ovt] := T2 E. rewrite (proj1 Hdq) (proj2 Hdq) /= in Ovt.
    have EM' : minn rn (minn p (rn + c)) = rn.
      apply/minn_idPl. rewrite leq_min leq_addr andbT. case/andP: Hp => Hp _. apply: leq_trans Hp. by rewrite leq_min Hrn leq_addr.
    rewrite EM' in Ovt. rewrite Eu2 trmx_mul mulmxA -(mulmxA _ W) OW ?mulmx1 //.
    by rewrite Efu ?trmxK trmx_mul -mulmxA (mulmxA _ (mx nn rn (factor fs n))) On mul1mx.
  move=> EX. exists p, dq, (u', s2, vt'), L, W.
  have EY : (mx rn N v1t)^T *m dg rn s1 *m (mx rn rn u1)^T = Y.
    case: explicit EX FIRST => [EX [x [t [Hx Ex Et ->]]]|_ //]. exact: EX Et.
  have PR' : L *m mx p (rn + c) dq *m W = (col_mx (mx nn rn (factor fs n) *m Y^T) (mx c N nv))^T.
    by rewrite PR tr_col_mx trmx_mul trmxK Efu trmx_mul mulmxA EY.
  split=> //.
    move=> On. have OF : (mx nn rn fu)^T *m mx nn rn fu = 1%:M.
      by rewrite Efu trmx_mul -mulmxA (mulmxA _ (mx nn rn (factor fs n))) On mul1mx.
    split; first exact: OW. rewrite -PR' PR. apply: LOW => //. by rewrite trmxK.
  rewrite (rep3_unf M FA') (rep3_unf M FA) F1 F2 F3 E' Ecc' Esv Ewt Ew Eu2t Ev2t Eat Ebt -krn_tr trmxK -/K.
  have PK : K *m K^T = P by rewrite /P /proj -krnM -krn_tr.
  have KK : K^T *m K = 1%:M by rewrite /K krn_tr krnM Oa Ob krn1.
  have OLD : mx nn rn (factor fs n) *m unf n a rn ra rb (tget 0 core) *m K^T = mx nn rn (factor fs n) *m Y^T *m P.
    by rewrite /Y trmx_mul trmxK -PK !mulmxA -(mulmxA _ K^T K) KK mulmx1.
  rewrite OLD -mul_col_mx -[col_mx _ _]trmxK -PR' !mulmxA -(mulmxA _ K) PK -mulmxBl. congr (_ *m _).
  rewrite mulmxBr mulmxBl linearB /=. congr (_ - _).
  by rewrite /product /= Ev2 Eu2 !trmx_mul tr_diag_mx !mulmxA.
Qed.

Lemma new_cells n a nn na nb c (t t' : cell -> R) (x : mat R) (PA : 'M[R]_na) (PB : 'M_nb) :
  unf n a (nn + c) na nb t' = col_mx (unf n a nn na nb t) (mx c (na * nb) x *m krn PA PB) ->
  (forall i y z, (i < nn)%N -> (y < na)%N -> (z < nb)%N -> t' (place n a i y z) = t (place n a i y z)) /\
  (forall i (y : 'I_na) (z : 'I_nb), (i < c)%N ->
     t' (place n a (nn + i)%N y z) = \sum_(y' < na) \sum_(z' < nb) mget 0 x i (y' + na * z')%N * PA y' y * PB z' z).
Proof.
  move=> /matrixP E. split.
  - move=> i y z Hi Hy Hz. move: (E (lshift c (Ordinal Hi)) (lohi (Ordinal Hy) (Ordinal Hz))).
    by rewrite col_mxEu !mxE lo_lohi hi_lohi.
  - move=> i y z Hi. move: (E (rshift nn (Ordinal Hi)) (lohi y z)). rewrite col_mxEd !mxE lo_lohi hi_lohi /= => ->.
    rewrite -(sum_lohi (fun y' z' => mget 0 x i (y' + na * z')%N * PA y' y * PB z' z)).
    apply: eq_bigr => w _. rewrite !mxE lo_lohi hi_lohi mulrA. congr (_ * _ * _). congr Tensor_model.mget. 
    exact: (esym (congr1 val (lohiK w))).
Qed.

(** Cells of the result when the SVDs are exact. *)
Lemma new_vectors_cells_main explicit mode n a b nn rn na ra nb rb c (fs : @factors R) core nv fs' core' :
  modes mode n a b -> factors_at n a b nn rn na ra nb rb fs core -> shape c (na * nb) nv ->
  (0 < rn)%N -> (rn <= na * nb)%N -> (c <= na * nb)%N ->
  orthonormal na ra (factor fs a) -> orthonormal nb rb (factor fs b) ->
  let N := (na * nb)%N in
  let Y := krn (mx na ra (factor fs a)) (mx nb rb (factor fs b)) *m (unf n a rn ra rb (tget 0 core))^T in
  update explicit fs core nv n = Ok (fs', core') ->
  (explicit -> forall x t, shape N rn x -> mx N rn x = Y -> rsvd1 x rn = Ok t -> product N rn rn t = Y) ->
  exists p dq t (L : 'M[R]_(N, p)) (W : 'M[R]_(rn + c, nn + c)),
  [/\ rsvd2 dq rn = Ok t, shape p (rn + c) dq, orthonormal nn rn (factor fs n) -> W *m W^T = 1%:M /\
        exists M : 'M_(p, N), mx p (rn + c) dq = M *m (col_mx (mx nn rn (factor fs n) *m Y^T) (mx c N nv))^T *m W^T,
      L *m mx p (rn + c) dq *m W = (col_mx (mx nn rn (factor fs n) *m Y^T) (mx c N nv))^T
    & product p rn (rn + c) t = mx p (rn + c) dq ->
      (forall i y z, (i < nn)%N -> (y < na)%N -> (z < nb)%N ->
         rep3 fs' core' (place n a i y z) = rep3 fs core (place n a i y z)) /\
      (forall i (y : 'I_na) (z : 'I_nb), (i < c)%N ->
         rep3 fs' core' (place n a (nn + i)%N y z)
         = \sum_(y' < na) \sum_(z' < nb)
             mget 0 nv i (y' + na * z')%N * proj na ra (factor fs a) y' y * proj nb rb (factor fs b) z' z)].
Proof.
  move=> M FA Hnv Hpos Hrn Hc Oa Ob N Y E EX. have := new_vectors_main explicit M FA Hnv Hpos Hrn Hc Oa Ob.
  rewrite /= E => -[_ _ _ _ /(_ EX) [p [dq [t [L [W [E2 Hdq OW EL ER]]]]]]].
  exists p, dq, t, L, W; split=> // PX. apply: new_cells. apply/eqP. by rewrite -subr_eq0 ER PX subrr mulmx0 mul0mx trmx0 mul0mx.
Qed.

(** More new vectors than columns of the unfolding. *)
Lemma new_vectors_too_many_main explicit mode n a b nn rn na ra nb rb c (fs : @factors R) core nv :
  modes mode n a b -> factors_at n a b nn rn na ra nb rb fs core -> shape c (na * nb) nv ->
  (rn <= na * nb)%N -> (na * nb < c)%N -> exists e, update explicit fs core nv n = Err e.
Proof.
  move=> M FA Hnv Hrn Hc. case: (FA) => Hn Ha Hb Wf [Sn Sa Sb].
  have EM : BinInt.Z.of_nat n = mode by case: M.
  rewrite /update_tucker_new_vectors EM (others_modes M).
  have -> : PeanoNat.Nat.ltb 2 n = false by case: M.
  have [cu -> [Hcu Ecu]] := unfold_ok Wf M Sn Sa Sb. rewrite /= Sn.
  have := first_svd_ok SVDS T1 explicit Hcu Ha Hb Hrn. rewrite /=.
  case: (unfolding_svd _ _ _ _ _ _ _ _ _ _ _) => [[[v1t s1] u1]|e] /=; last by exists e.
  move=> [[Hv1 Hs1 Hu1 Ov1 Ou1] FIRST].
  have [fu -> [Hfu Efu]] := dot_ok Hn Hu1. rewrite /=.
  have [Hv1t Ev1t] := transpose_ok Hv1. have [Hfut Efut] := transpose_ok Hfu. have [Hnvt Envt] := transpose_ok Hnv.
  have [e -> _] := update_too_many_main exceeds_eps QR (truncated_rsvd T2) (s := SVec s1) Hv1t (conj Hs1 Hs1) Hfut Hnvt Hc.
  by exists e.
Qed.
End New.

(** The randomised SVD meets the contract and is exact when the sample covers the matrix. *)
Section Random.
Variable R : comRingType.
Variables (qr : mat R -> res (mat R * mat R)) (svd : mat R -> res (mat R * list R * mat R)) (randn : nat -> nat -> mat R).
Hypotheses (QR : qr_ok qr) (SVD : svd_ok svd) (RN : randn_ok randn).
Notation rsvd := (fun npow os x r => random_svd (0 : R) +%R *%R qr svd randn x r npow os).

Lemma random_truncated npow os : truncated_ok (rsvd npow os).
Proof.
  move=> x rank [[u s] vt] /(random_svd_exact_main QR SVD RN (conj erefl erefl)) /=.
  have -> : minn rank (minn (minn (mr x) (rank + os)) (mc x)) = minn rank (minn (mr x) (mc x)).
    by rewrite (minnC (mr x)) -minnA minnA (minn_idPl (leq_addr os rank)).
  by move=> [[H1 H2 H3] [O1 O2] _ _].
Qed.

Lemma random_exact npow os N r (x : mat R) t : shape N r x -> (r <= N)%N -> rsvd npow os x r = Ok t ->
  (exists Z, mx N r x = powers (mx N r x) (mx N r x *m mx r (r + os) (randn r (r + os)%N)) npow *m Z) ->
  product N r r t = mx N r x.
Proof.
  case: t => [[u s] vt] Hx L /(random_svd_exact_main QR SVD RN Hx) /=.
  have -> : minn r (minn (minn N (r + os)) r) = r.
    by apply/minn_idPl; rewrite !leq_min L leq_addr leqnn.
  by move=> [_ _ _ H] /H; apply.
Qed.
End Random.

Section Both.
Variable R : comRingType.
Variables (qr : mat R -> res (mat R * mat R)) (svd : mat R -> res (mat R * list R * mat R)).
Variables (randn1 randn2 : nat -> nat -> mat R) (svds : linop R -> nat -> res (mat R * list R * mat R)).
Variables (exceeds_eps : R -> bool) (npow os : nat).
Hypotheses (QR : qr_ok qr) (SVD : svd_ok svd) (RN1 : randn_ok randn1) (RN2 : randn_ok randn2) (SVDS : svds_op_ok svds).
Notation rsvd1 := (fun x r => random_svd (0 : R) +%R *%R qr svd randn1 x r npow os).
Notation rsvd2 := (fun x r => random_svd (0 : R) +%R *%R qr svd randn2 x r 1 2).
Notation update := (update_tucker_new_vectors (0 : R) 1 +%R *%R (fun x y => x - y) qr svds rsvd1 rsvd2 exceeds_eps).

Lemma new_vectors_random_main explicit mode n a b nn rn na ra nb rb c (fs : @factors R) core nv fs' core' :
  modes mode n a b -> factors_at n a b nn rn na ra nb rb fs core -> shape c (na * nb) nv ->
  (0 < rn)%N -> (rn <= na * nb)%N -> (c <= na * nb)%N ->
  orthonormal na ra (factor fs a) -> orthonormal nb rb (factor fs b) ->
  let N := (na * nb)%N in
  let Y := krn (mx na ra (factor fs a)) (mx nb rb (factor fs b)) *m (unf n a rn ra rb (tget 0 core))^T in
  update explicit fs core nv n = Ok (fs', core') ->
  (explicit -> exists Z, Y = powers Y (Y *m mx rn (rn + os) (randn1 rn (rn + os)%N)) npow *m Z) ->
  exists p dq t (L : 'M[R]_(N, p)) (W : 'M[R]_(rn + c, nn + c)),
  [/\ random_svd 0 +%R *%R qr svd randn2 dq rn 1 2 = Ok t, shape p (rn + c) dq, orthonormal nn rn (factor fs n) -> W *m W^T = 1%:M /\
        exists M : 'M_(p, N), mx p (rn + c) dq = M *m (col_mx (mx nn rn (factor fs n) *m Y^T) (mx c N nv))^T *m W^T,
      L *m mx p (rn + c) dq *m W = (col_mx (mx nn rn (factor fs n) *m Y^T) (mx c N nv))^T
    & product p rn (rn + c) t = mx p (rn + c) dq ->
      (forall i y z, (i < nn)%N -> (y < na)%N -> (z < nb)%N ->
         rep3 fs' core' (place n a i y z) = rep3 fs core (place n a i y z)) /\
      (forall i (y : 'I_na) (z : 'I_nb), (i < c)%N ->
         rep3 fs' core' (place n a (nn + i)%N y z)
         = \sum_(y' < na) \sum_(z' < nb)
             mget 0 nv i (y' + na * z')%N * proj na ra (factor fs a) y' y * proj nb rb (factor fs b) z' z)].
Proof.
  move=> M FA Hnv Hpos Hrn Hc Oa Ob N Y E SA.
  have H := new_vectors_cells_main QR SVDS (@random_truncated R qr svd randn1 QR SVD RN1 npow os) (@random_truncated R qr svd randn2 QR SVD RN2 1%N 2%N) M FA Hnv Hpos Hrn Hc Oa Ob E.
  apply: H. move=> EXP x t Hx Ex Et. rewrite -Ex. apply: (random_exact QR SVD RN1 Hx Hrn Et). rewrite Ex. exact: SA.
Qed.
End Both.
