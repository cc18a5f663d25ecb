(** Proofs for update_tucker_new_matrix. *)
From Verif Require Import Prelude Tensor_model Tensor_spec Matrix_model Attention_model LinAlg_model Hooi_model Upd_model.
From Verif Require Import Tensor_sums Tensor_dot Tensor_proofs.
Set Warnings "-notation-overridden".
From mathcomp Require Import all_ssreflect all_algebra.
From Verif Require Import LinAlg_spec LinAlg_bridge Tucker_spec Tucker_bridge Tucker_main Tucker_modes Tucker_integ
  Hooi_spec Hooi_bridge Hooi_run Hooi_main Hooi_exact Hooi_final Hosvd_main LinAlg_block Upd_spec.
Set Implicit Arguments.
Unset Strict Implicit.
Unset Printing Implicit Defensive.
Import GRing.Theory.
Local Open Scope ring_scope.

Section Parts.
Variable R : comRingType.
Notation mget := (Tensor_model.mget (0 : R)).

Lemma dense_line (es : list (cell * R)) n (i j : nat) (F : nat -> R) :
  all (fun e => (axis e.1 2 < n)%N) es ->
  \sum_(l < n) dense es (i, j, l : nat) * F l
  = \sum_(e <- es | (axis e.1 0 == i) && (axis e.1 1 == j)) e.2 * F (axis e.1 2).
Proof.
  elim: es => [|[[[x y] z] v] es IH] /=.
    by move=> _; rewrite big_nil big1 // => y _; rewrite dense_nil mul0r.
  move=> /andP [Hz /IH E]. rewrite big_cons -E /= /c0 /c1 /c2 /=.
  under eq_bigr => l _ do rewrite dense_cons mulrDl. rewrite big_split /=.
  have -> : \sum_(l < n) (if (x, y, z) == (i, j, l : nat) then v else 0) * F l
            = if (x == i) && (y == j) then v * F z else 0; last by case: ifP; rewrite ?add0r.
  rewrite (bigD1 (Ordinal Hz)) //= big1 ?addr0.
    by rewrite !xpair_eqE eqxx andbT; case: ifP; rewrite ?mul0r.
  move=> l Hl. case: eqP => [[_ _ E2]|]; last by rewrite mul0r.
  by case/negP: Hl; apply/eqP/val_inj.
Qed.

Lemma tensordot_ok m0 m1 n2 r2 inds (vals : list R) (w : mat R) : shape n2 r2 w ->
  length vals = length inds -> List.Forall (in_range (m0, m1, n2)) inds ->
  exists2 x, tensordot 0 +%R *%R inds vals (m0, m1, n2) (transpose 0 w) (BinNums.Zpos (BinNums.xO BinNums.xH)) = Ok x
    & [/\ twf x, tshape x = (m0, m1, r2)
        & forall i j k, (i < m0)%N -> (j < m1)%N -> (k < r2)%N ->
          tget 0 x (i, j, k) = \sum_(l < n2) dense (List.combine inds vals) (i, j, l : nat) * mget w l k].
Proof.
  move=> Hw LV FR. have [[Ht1 Ht2] Et] := transpose_ok Hw.
  have [_ P] := tensordot_main (0 : R) +%R *%R inds vals (m0, m1, n2) (transpose 0 w) _ _ _ _ mode_2.
  case: P.
    right. split; first by rewrite LV. apply: Forall_firstn. apply: List.Forall_impl FR => -[[x y] z].
    by rewrite Ht2 => -[? [? ?]].
  move=> x [-> [W [S2 [S0 [S1 P]]]]]. exists x => //.
  have S : tshape x = (m0, m1, r2) by case: (tshape x) S0 S1 S2 => -[a b] c /=; rewrite /c0 /c1 /c2 /= (proj2 Hw) => -> -> ->.
  split=> // i j k Hi Hj Hk.
  rewrite P; last by rewrite S; do !split; apply/ltP.
  rewrite (fold_left_sum _ _ _ _ _ _ (RT R)) add0r filter_big.
  transitivity (\sum_(l < n2) dense (List.combine inds vals) (i, j, l : nat) * mget (transpose 0 w) k l); last first.
    by apply: eq_bigr => l _; rewrite /Attention_model.transpose (proj1 Hw) (proj2 Hw) build_mget.
  rewrite (dense_line (n := n2) i j (fun l => mget (transpose 0 w) k l)).
    by apply: eq_bigl => -[[[a b] c] v] /=; rewrite !eqb_eqn.
  have := Forall_combine vals FR. elim=> //= -[[[a b] c] v] l [_ [_ /ltP H]] _ ->. by rewrite andbT.
Qed.

Lemma core_of_unf n0 r0 n1 r1 n2 r2 (t : cell -> R) (U : 'M_(n0, r0)) (V : 'M_(n1, r1)) (W : 'M_(n2, r2)) core :
  twf core -> tshape core = (r0, r1, r2) ->
  unf 0 1 r0 r1 r2 (tget 0 core) = U^T *m unf 0 1 n0 n1 n2 t *m krn V W -> core_of t U V W core.
Proof.
  move=> Wf S E. split=> // a b c.
  have := congr1 (fun M : 'M[R]_(r0, r1 * r2) => M a (lohi b c)) E. rewrite /= unf_lohi /place /= => ->.
  rewrite -mulmxA mxE. apply: eq_bigr => i _. rewrite !mxE.
  rewrite -(sum_lohi (fun (j : 'I_n1) (k : 'I_n2) => t (i : nat, j : nat, k : nat) * U i a * V j b * W k c)).
  rewrite big_distrr /=. apply: eq_bigr => y _. rewrite !mxE lo_lohi hi_lohi /place /=.
  by rewrite mulrCA !mulrA.
Qed.

Lemma extended_ok p0 p1 p2 q0 q1 (x y : ten R) : tshape x = (p0, p1, p2) -> tshape y = (q0, q1, p2) ->
  exists2 z, extended_core 0 x y = Ok z & [/\ twf z, tshape z = (p0 + q0, p1 + q1, p2)%N
    & forall i j k, (i < p0 + q0)%N -> (j < p1 + q1)%N -> (k < p2)%N ->
      tget 0 z (i, j, k) = if (i < p0)%N && (j < p1)%N then tget 0 x (i, j, k)
                           else if (p0 <= i)%N && (p1 <= j)%N then tget 0 y ((i - p0)%N, (j - p1)%N, k) else 0].
Proof.
  move=> Sx Sy. rewrite /extended_core Sx Sy eqb_eqn eqxx /=. eexists; first by []. split=> //.
  - exact: map_cells_wf.
  - move=> i j k Hi Hj Hk. rewrite tget_map_cells; last by do !split; apply/ltP.
    rewrite !ltb_ltn !leb_leq !minusE eqb_eqn. case: ifP => // _. case: ifP => // _.
    by case: eqP Hk => // ->; case: k.
Qed.
End Parts.

Section Block.
Variable R : comRingType.
Notation mget := (Tensor_model.mget (0 : R)).
Variables (n0 r0 n1 r1 n2 r2 m0 m1 : nat) (u v w un vn : mat R) (core cn E : ten R).
Hypotheses (Hu : shape n0 r0 u) (Hv : shape n1 r1 v) (Hw : shape n2 r2 w) (Hun : shape m0 m0 un) (Hvn : shape m1 m1 vn).
Hypothesis EE : forall i j k, (i < r0 + m0)%N -> (j < r1 + m1)%N -> (k < r2)%N ->
  tget 0 E (i, j, k) = if (i < r0)%N && (j < r1)%N then tget 0 core (i, j, k)
                       else if (r0 <= i)%N && (r1 <= j)%N then tget 0 cn ((i - r0)%N, (j - r1)%N, k) else 0.

Lemma split_sums (A : 'I_(r0 + m0) -> R) (B : 'I_(r1 + m1) -> R) (C : 'I_r2 -> R) :
  \sum_(a < r0 + m0) \sum_(b < r1 + m1) \sum_(c < r2) tget 0 E (a : nat, b : nat, c : nat) * A a * B b * C c
  = \sum_(a < r0) \sum_(b < r1) \sum_(c < r2) tget 0 core (a : nat, b : nat, c : nat) * A (lshift m0 a) * B (lshift m1 b) * C c
    + \sum_(a < m0) \sum_(b < m1) \sum_(c < r2) tget 0 cn (a : nat, b : nat, c : nat) * A (rshift r0 a) * B (rshift r1 b) * C c.
Proof.
  have L p q (z : 'I_p) : (z < p + q)%N by rewrite ltn_addr.
  have G p q (z : 'I_q) : (p + z < p + q)%N by rewrite ltn_add2l.
  have F p (z : nat) : (p + z < p)%N = false by rewrite ltnNge leq_addr.
  have F' p (z : 'I_p) : (p <= z)%N = false by rewrite leqNgt ltn_ord.
  rewrite big_split_ord /=. congr (_ + _); apply: eq_bigr => a _; rewrite big_split_ord /=.
  - rewrite [X in _ + X]big1 ?addr0.
      apply: eq_bigr => b _; apply: eq_bigr => c _. by rewrite EE // !ltn_ord.
    move=> b _; apply: big1 => c _. by rewrite EE // F F' andbF /= !mul0r.
  - rewrite [X in X + _]big1 ?add0r.
      apply: eq_bigr => b _; apply: eq_bigr => c _. by rewrite EE // F /= !leq_addr /= !addKn.
    move=> b _; apply: big1 => c _. by rewrite EE // F F' andbF /= !mul0r.
Qed.

Lemma block_get p0 q0 p1 q1 (x y : mat R) : shape p0 q0 x -> shape p1 q1 y ->
  (forall (i : 'I_p0) (j : 'I_q0), mget (block_diag 0 x y) i j = mget x i j) /\
  (forall (i : 'I_p0) (j : 'I_q1), mget (block_diag 0 x y) i (q0 + j)%N = 0) /\
  (forall (i : 'I_p1) (j : 'I_q0), mget (block_diag 0 x y) (p0 + i)%N j = 0) /\
  (forall (i : 'I_p1) (j : 'I_q1), mget (block_diag 0 x y) (p0 + i)%N (q0 + j)%N = mget y i j).
Proof.
  move=> Hx Hy. have [_ /matrixP P] := block_diag_ok Hx Hy. do !split.
  - move=> i j. move: (P (lshift p1 i) (lshift q1 j)). by rewrite block_mxEul !mxE.
  - move=> i j. move: (P (lshift p1 i) (rshift q0 j)). by rewrite block_mxEur !mxE.
  - move=> i j. move: (P (rshift p0 i) (lshift q1 j)). by rewrite block_mxEdl !mxE.
  - move=> i j. move: (P (rshift p0 i) (rshift q0 j)). by rewrite block_mxEdr !mxE.
Qed.

Variables (data : cell -> R) (att : option (mat R)) (x : ten R) (w2 : mat R).
Hypothesis XE : forall i j k, (i < m0)%N -> (j < m1)%N -> (k < r2)%N ->
  tget 0 x (i, j, k) = \sum_(l < n2) data (i, j, l : nat) * \sum_(y < n2) attm n2 att l y * mget w y k.
Hypotheses (Hw2 : shape r2 r2 w2) (Ew2 : mx r2 r2 w2 = 1%:M).
Hypothesis XR : forall c, in_range (m0, m1, r2) c -> rep un vn w2 cn c = tget 0 x c.

Lemma rep_block i j k : (i < n0 + m0)%N -> (j < n1 + m1)%N -> (k < n2)%N ->
  rep (block_diag 0 u un) (block_diag 0 v vn) w E (i, j, k)
  = block_tensor n0 n1 n2 r2 (rep u v w core) data att w (i, j, k).
Proof.
  move=> Hi Hj Hk. have [Hb0 _] := block_diag_ok Hu Hun. have [Hb1 _] := block_diag_ok Hv Hvn.
  rewrite (repE _ _ _ _ Hb0 Hb1 Hw).
  rewrite (split_sums (fun a => mget (block_diag 0 u un) i a) (fun b => mget (block_diag 0 v vn) j b) (fun c => mget w k c)) /=.
  have [U1 [U2 [U3 U4]]] := block_get Hu Hun. have [V1 [V2 [V3 V4]]] := block_get Hv Hvn.
  have big0 (I J K : nat) (F : 'I_I -> 'I_J -> 'I_K -> R) : (forall a b c, F a b c = 0) ->
      \sum_(a < I) \sum_(b < J) \sum_(c < K) F a b c = 0.
    move=> F0. by apply: big1 => a _; apply: big1 => b _; apply: big1 => c _.
  rewrite /block_tensor. case: (ltnP i n0) => Ei.
  - case: (ltnP j n1) => Ej /=.
    + rewrite [X in _ + X]big0 ?addr0; last first.
        move=> a b c. by rewrite (U2 (Ordinal Ei)) !(mulr0, mul0r).
      rewrite (repE _ _ _ _ Hu Hv Hw). apply: eq_bigr => a _; apply: eq_bigr => b _; apply: eq_bigr => c _.
      by rewrite (U1 (Ordinal Ei)) (V1 (Ordinal Ej)).
    + have Ej' : (j - n1 < m1)%N by rewrite ltn_subLR.
      rewrite !big0 ?addr0 //.
        move=> a b c. by rewrite (U2 (Ordinal Ei)) !(mulr0, mul0r).
      move=> a b c. move: (V3 (Ordinal Ej') b); rewrite /= subnKC // => ->. by rewrite mulr0 mul0r.
  - have Ei' : (i - n0 < m0)%N by rewrite ltn_subLR.
    case: (ltnP j n1) => Ej /=.
    + rewrite !big0 ?addr0 //.
        move=> a b c. by rewrite (V2 (Ordinal Ej)) !(mulr0, mul0r).
      move=> a b c. move: (U3 (Ordinal Ei') a); rewrite /= subnKC // => ->. by rewrite mulr0 !mul0r.
    + have Ej' : (j - n1 < m1)%N by rewrite ltn_subLR.
      rewrite big0 ?add0r; last first.
        move=> a b c. move: (U3 (Ordinal Ei') a); rewrite /= subnKC // => ->. by rewrite mulr0 !mul0r.
      transitivity (\sum_(c < r2) tget 0 x ((i - n0)%N, (j - n1)%N, c : nat) * mget w k c).
        transitivity (\sum_(c < r2) \sum_(a < m0) \sum_(b < m1)
            tget 0 cn (a : nat, b : nat, c : nat) * mget un (i - n0) a * mget vn (j - n1) b * mget w k c).
          under eq_bigr => a _ do rewrite exchange_big. rewrite exchange_big.
          apply: eq_bigr => c _; apply: eq_bigr => a _; apply: eq_bigr => b _.
          move: (U4 (Ordinal Ei') a) (V4 (Ordinal Ej') b); by rewrite /= !subnKC // => -> ->.
        apply: eq_bigr => c _. rewrite -XR ?(repE _ _ _ _ Hun Hvn Hw2); last by do !split; apply/ltP; rewrite /c0 /c1 /c2 /= ?Ei' ?Ej' ?ltn_ord.
        rewrite mulr_suml; apply: eq_bigr => a _. rewrite mulr_suml; apply: eq_bigr => b _.
        congr (_ * _). rewrite (bigD1 c) //= big1 ?addr0.
          move/matrixP: Ew2 => /(_ c c). by rewrite !mxE eqxx => ->; rewrite mulr1.
        move=> d Hd. move/matrixP: Ew2 => /(_ c d). rewrite !mxE eq_sym (negbTE Hd) => ->. by rewrite mulr0.
      transitivity (\sum_(c < r2) \sum_(l < n2) data ((i - n0)%N, (j - n1)%N, l : nat) *
          ((\sum_(y < n2) attm n2 att l y * mget w y c) * mget w k c)).
        apply: eq_bigr => c _. rewrite XE // mulr_suml. by apply: eq_bigr => l _; rewrite mulrA.
      rewrite exchange_big; apply: eq_bigr => l _. rewrite mulr_sumr. apply: eq_bigr => c _.
      congr (_ * (_ * _)). rewrite mxE. by apply: eq_bigr => y _; rewrite mxE.
Qed.
End Block.

Section Matrix.
Variable R : comRingType.
Notation mget := (Tensor_model.mget (0 : R)).
Variables (qr : mat R -> res (mat R * mat R)) (rand2 rand3 : nat -> nat -> nat -> mat R).
Variables rsvd3 rsvd4 : nat -> mat R -> nat -> res (mat R * list R * mat R).
Variable svd_full : mat R -> res (mat R * list R * mat R).
Hypotheses (RIGHT3 : right_ok rsvd3) (RIGHT4 : right_ok rsvd4) (FULL : svd_full_ok svd_full).

Lemma attend_ok n2 r2 (att : option (mat R)) (w : mat R) : shape n2 r2 w -> att_shape n2 att ->
  exists2 aw, match att with Some a => Matrix_model.dot 0 +%R *%R a w | None => Ok w end = Ok aw
    & shape n2 r2 aw /\ mx n2 r2 aw = attm n2 att *m mx n2 r2 w.
Proof.
  move=> Hw. case: att => [a|] /=; first by move=> Ha; exact: dot_ok.
  by move=> _; exists w => //; rewrite mul1mx.
Qed.

Lemma square_exact p q r (x : ten R) (u v w2 : mat R) cn : shape p p u -> shape q q v -> shape r r w2 ->
  orthonormal p p u -> orthonormal q q v -> mx r r w2 = 1%:M ->
  core_of (tget 0 x) (mx p p u) (mx q q v) (mx r r w2) cn ->
  forall c, in_range (p, q, r) c -> rep u v w2 cn c = tget 0 x c.
Proof.
  move=> Hu Hv Hw Ou Ov Ew CO.
  have Ow : orthonormal r r w2 by rewrite /orthonormal Ew trmx1 mulmx1.
  apply/(rep_exact_main Hu Hv Hw Ou Ov Ow CO). by rewrite (mulmx1C Ou) (mulmx1C Ov) Ew trmx1 !mulmx1 !mul1mx.
Qed.

Lemma rank_min a b : (a <= b)%N -> minn a (minn b a) = a.
Proof. by move=> H; rewrite (minn_idPr H) minnn. Qed.

Lemma new_matrix_main n0 r0 n1 r1 n2 r2 m0 m1 (u v w : mat R) core inds vals att :
  shape n0 r0 u -> shape n1 r1 v -> shape n2 r2 w -> twf core -> tshape core = (r0, r1, r2) ->
  att_shape n2 att -> length vals = length inds -> List.Forall (in_range (m0, m1, n2)) inds ->
  match update_tucker_new_matrix (0 : R) 1 +%R *%R qr rand2 rand3 rsvd3 rsvd4 svd_full (u, v, w) core inds vals (m0, m1, n2) att with
  | Err e => (e = RuntimeError /\ ~ [/\ (r0 <= r1 * r2)%N, (r1 <= r0 * r2)%N & (r2 <= r0 * r1)%N])
             \/ (exists t y q, rsvd3 t y q = Err e) \/ (exists t y q, rsvd4 t y q = Err e) \/ exists y, svd_full y = Err e
  | Ok (fs, core') =>
    [/\ [/\ (r0 <= r1 * r2)%N, (r1 <= r0 * r2)%N & (r2 <= r0 * r1)%N],
        [/\ shape (n0 + m0) r0 (factor fs 0), shape (n1 + m1) r1 (factor fs 1) & shape n2 r2 (factor fs 2)],
        twf core' /\ tshape core' = (r0, r1, r2)
      & orthonormal n0 r0 u -> orthonormal n1 r1 v -> orthonormal n2 r2 w ->
        let T := block_tensor n0 n1 n2 r2 (rep u v w core) (dense (List.combine inds vals)) att w in
        projection (n0 + m0) r0 (n1 + m1) r1 n2 r2 T fs core' /\
        exists un vn E f0 f1 f2,
        let U := block_mx (mx n0 r0 u) 0 0 (mx m0 m0 un) in
        let V := block_mx (mx n1 r1 v) 0 0 (mx m1 m1 vn) in
        [/\ orthonormal m0 m0 un /\ orthonormal m1 m1 vn,
            unf 0 1 (n0 + m0) (n1 + m1) n2 T
              = U *m unf 0 1 (r0 + m0) (r1 + m1) r2 (tget 0 E) *m (krn V (mx n2 r2 w))^T,
            [/\ unfolding_factor (fun y => rsvd4 0%N y r0) 0 1 (r0 + m0) (r1 + m1) r2 r0 (tget 0 E) f0,
                unfolding_factor (fun y => rsvd4 1%N y r1) 1 0 (r1 + m1) (r0 + m0) r2 r1 (tget 0 E) f1
              & unfolding_factor (fun y => rsvd4 2%N y r2) 2 0 r2 (r0 + m0) (r1 + m1) r2 (tget 0 E) f2],
            [/\ mx (n0 + m0) r0 (factor fs 0) = U *m mx (r0 + m0) r0 f0,
                mx (n1 + m1) r1 (factor fs 1) = V *m mx (r1 + m1) r1 f1
              & mx n2 r2 (factor fs 2) = mx n2 r2 w *m mx r2 r2 f2]
          & [/\ proj (r0 + m0) r0 f0 *m unf 0 1 (r0 + m0) (r1 + m1) r2 (tget 0 E) = unf 0 1 (r0 + m0) (r1 + m1) r2 (tget 0 E),
                proj (r1 + m1) r1 f1 *m unf 1 0 (r1 + m1) (r0 + m0) r2 (tget 0 E) = unf 1 0 (r1 + m1) (r0 + m0) r2 (tget 0 E)
              & proj r2 r2 f2 *m unf 2 0 r2 (r0 + m0) (r1 + m1) (tget 0 E) = unf 2 0 r2 (r0 + m0) (r1 + m1) (tget 0 E)] ->
            forall c, in_range (n0 + m0, n1 + m1, n2)%N c -> rep3 fs core' c = T c]]
  end.
Proof.
  move=> Hu Hv Hw Wc Sc Ha LV FR. rewrite /update_tucker_new_matrix /= /factor /=.
  have [aw -> [Haw Eaw]] := attend_ok Hw Ha. rewrite /=.
  have [x -> [Wx Sx XE]] := tensordot_ok Haw LV FR. rewrite /=.
  have := tucker2_dense_main qr rand2 RIGHT3 FULL (im := 2) Wx Sx isT erefl. rewrite Sx /=.
  set valid := rank_is_valid _.
  have -> : (if valid then minn m0 (minn (m1 * r2) m0) else m0) = m0.
    rewrite /valid; case: rank_validE => // -[H _ _]. exact: rank_min.
  have -> : (if valid then minn m1 (minn (m0 * r2) m1) else m1) = m1.
    rewrite /valid; case: rank_validE => // -[_ H _]. exact: rank_min.
  case: (tucker2_dense _ _ _ _ _ _ _ _ _ _ _) => [[[fa fb] cn]|e] /=; last by case; auto.
  move=> [un [vn [w2 [[-> ->] [[xu [? [? [? [_ _ _ [Hun _]]]]]] [xv [? [? [? [_ _ _ [Hvn _]]]]]] Ew2] COn [[Oun Ovn _] _ _ _] _]]]].
  have [Wn Sn _] := COn.
  have [E -> [WE SE EE]] := extended_ok Sc Sn. rewrite /= Sc.
  have := hosvd_dense_main qr rand3 RIGHT4 r0 r1 r2 WE SE.
  case: (hosvd_dense _ _ _ _ _ _ _ _) => [[[[f0 f1] f2] core']|e] /=; last by case; auto.
  move=> [[V0 V1 V2]]. rewrite /factor /=.
  have -> : minn r0 (minn ((r1 + m1) * r2) (r0 + m0)) = r0.
    apply/minn_idPl. rewrite leq_min leq_addr andbT. by apply: leq_trans V0 _; rewrite leq_mul2r leq_addr orbT.
  have -> : minn r1 (minn ((r0 + m0) * r2) (r1 + m1)) = r1.
    apply/minn_idPl. rewrite leq_min leq_addr andbT. by apply: leq_trans V1 _; rewrite leq_mul2r leq_addr orbT.
  have -> : minn r2 (minn ((r0 + m0) * (r1 + m1)) r2) = r2.
    apply: rank_min. by apply: leq_trans V2 _; apply: leq_mul; rewrite leq_addr.
  move=> [F0 F1 F2] COE [[Of0 Of1 Of2] _ _ _].
  have Hf0 : shape (r0 + m0) r0 f0 by case: F0 => [? [? [? [? [_ _ _ [H _]]]]]].
  have Hf1 : shape (r1 + m1) r1 f1 by case: F1 => [? [? [? [? [_ _ _ [H _]]]]]].
  have Hf2 : shape r2 r2 f2 by case: F2 => [? [? [? [? [_ _ _ [H _]]]]]].
  have [Hub Eub] := block_diag_ok Hu Hun. have [Hvb Evb] := block_diag_ok Hv Hvn.
  have [u' -> [Hu' Eu']] := dot_ok Hub Hf0. rewrite /=.
  have [v' -> [Hv' Ev']] := dot_ok Hvb Hf1. rewrite /=.
  have [w' -> [Hw' Ew']] := dot_ok Hw Hf2. rewrite /=.
  have [Wc' Sc' _] := COE.
  split=> // Ou Ov Ow.
  set T := block_tensor _ _ _ _ _ _ _ _.
  have [He Ee] := eye_ok R r2.
  have TE c : in_range (n0 + m0, n1 + m1, n2)%N c -> rep (block_diag 0 u un) (block_diag 0 v vn) w E c = T c.
    case: c => -[i j] k [/ltP Hi [/ltP Hj /ltP Hk]].
    apply: (rep_block Hu Hv Hw Hun Hvn EE (w2 := eye 0 1 r2) (x := x)) => //.
      move=> a b c La Lb Lc. rewrite XE //. apply: eq_bigr => l _. congr (_ * _).
      move/matrixP: Eaw => /(_ l (Ordinal Lc)). rewrite !mxE /= => ->.
      by apply: eq_bigr => y _; rewrite !mxE.
    apply: (square_exact Hun Hvn He Oun Ovn Ee). by rewrite Ee -Ew2.
  have U0 : unf 0 1 (n0 + m0) (n1 + m1) n2 T
    = mx _ _ (block_diag 0 u un) *m unf 0 1 (r0 + m0) (r1 + m1) r2 (tget 0 E) *m (krn (mx _ _ (block_diag 0 v vn)) (mx n2 r2 w))^T.
    rewrite -(rep_unf0 _ Hub Hvb Hw). apply: unf_eq => i j k Hi Hj Hk. rewrite -TE //. by do !split; apply/ltP.
  have OUb : (mx (n0 + m0) (r0 + m0) (block_diag 0 u un))^T *m mx (n0 + m0) (r0 + m0) (block_diag 0 u un) = 1%:M.
    rewrite Eub. exact: block_orth.
  have OVb : (mx (n1 + m1) (r1 + m1) (block_diag 0 v vn))^T *m mx (n1 + m1) (r1 + m1) (block_diag 0 v vn) = 1%:M.
    rewrite Evb. exact: block_orth.
  have P k (a b c : nat) (X : 'M[R]_(a, b)) (Y : 'M[R]_(b, c)) : k = a -> X^T *m X = 1%:M -> Y^T *m Y = 1%:M -> (X *m Y)^T *m (X *m Y) = 1%:M.
    by move=> _ OX OY; rewrite trmx_mul -mulmxA (mulmxA X^T) OX mul1mx.
  have CO : core_of T (mx (n0 + m0) r0 u') (mx (n1 + m1) r1 v') (mx n2 r2 w') core'.
    apply: core_of_unf => //. rewrite Eu' Ev' Ew' -krnM U0 trmx_mul !mulmxA.
    rewrite -(mulmxA (mx _ _ f0)^T) OUb mulmx1 -!mulmxA (mulmxA (krn _ _)^T) krn_tr krnM OVb Ow krn1 mul1mx mulmxA.
    case: COE => _ _. exact: core_unf.
  have PR : projection (n0 + m0) r0 (n1 + m1) r1 n2 r2 T (u', v', w') core'.
    apply: projection_of => //; rewrite /orthonormal ?Eu' ?Ev' ?Ew'; exact: P.
  split=> //. exists un, vn, E, f0, f1, f2. split=> //.
  - by rewrite -Eub -Evb.
  - by rewrite -Eub -Evb.
  - move=> [Q0 Q1 Q2]. case: PR => _ _ PE _. apply: (proj2 PE). rewrite /factor /=.
    have R1 : unf 1 0 (n1 + m1) (n0 + m0) n2 T
      = mx _ _ (block_diag 0 v vn) *m unf 1 0 (r1 + m1) (r0 + m0) r2 (tget 0 E) *m (krn (mx _ _ (block_diag 0 u un)) (mx n2 r2 w))^T.
      rewrite -(rep_unf1 _ Hub Hvb Hw). apply: unf_eq => i j k Hi Hj Hk. rewrite -TE //. by do !split; apply/ltP.
    have R2 : unf 2 0 n2 (n0 + m0) (n1 + m1) T
      = mx n2 r2 w *m unf 2 0 r2 (r0 + m0) (r1 + m1) (tget 0 E) *m (krn (mx _ _ (block_diag 0 u un)) (mx _ _ (block_diag 0 v vn)))^T.
      rewrite -(rep_unf2 _ Hub Hvb Hw). apply: unf_eq => i j k Hi Hj Hk. rewrite -TE //. by do !split; apply/ltP.
    have S a b k c (B : 'M[R]_(a, b)) (F : 'M[R]_(b, k)) (X : 'M[R]_(b, c)) d (K : 'M[R]_(c, d)) :
        B^T *m B = 1%:M -> F *m F^T *m X = X -> (B *m F) *m (B *m F)^T *m (B *m X *m K) = B *m X *m K.
      move=> OB FX. rewrite trmx_mul -!mulmxA (mulmxA B^T B) OB mul1mx (mulmxA F^T) (mulmxA F) (mulmxA F) FX. by [].
    split; [rewrite Eu' U0|rewrite Ev' R1|rewrite Ew' R2]; exact: S.
Qed.
End Matrix.
