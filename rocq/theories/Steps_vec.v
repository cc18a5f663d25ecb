(** The experiment with new rows or columns. *)
From Coq Require Import ZArith Lia.
From Verif Require Import Prelude Tensor_model Matrix_model Attention_model LinAlg_model Steps_model.
Set Warnings "-notation-overridden".
From mathcomp Require Import all_ssreflect all_algebra.
From Verif Require Import LinAlg_spec LinAlg_bridge LinAlg_psi LinAlg_vectors Upd_spec Exact_spec Exact_main Exact_final Steps_spec Steps_err.
Set Implicit Arguments.
Unset Strict Implicit.
Unset Printing Implicit Defensive.
Import Order.TTheory GRing.Theory Num.Theory.
Local Open Scope ring_scope.

(** Matrices with the growing axis as columns. *)
Section Orient.
Variable R : comRingType.
Definition oshape (axis : ax) (m q : nat) (a : mat R) : Prop := match axis with Cols => shape m q a | Rows => shape q m a end.
Definition omx (axis : ax) (m q : nat) (a : mat R) : 'M[R]_(m, q) :=
  match axis with Cols => mx m q a | Rows => (mx q m a)^T end.
Definition orient (axis : ax) (t : mat R * list R * mat R) := match axis with Cols => t | Rows => flip 0 t end.

Lemma flip_ok m k n (t : mat R * list R * mat R) : shape m k t.1.1 -> shape k n t.2 ->
  [/\ shape n k (flip 0 t).1.1, (flip 0 t).1.2 = t.1.2, shape k m (flip 0 t).2,
      mx n k (flip 0 t).1.1 = (mx k n t.2)^T & mx k m (flip 0 t).2 = (mx m k t.1.1)^T].
Proof.
  case: t => [[u s] vt] /= Hu Hv. have [H1 E1] := transpose_ok Hu. have [H2 E2] := transpose_ok Hv. by split.
Qed.

Lemma dg_tr k (s : list R) : (dg k s)^T = dg k s.
Proof. exact: tr_diag_mx. Qed.

Lemma flip_product m k n (t : mat R * list R * mat R) : shape m k t.1.1 -> shape k n t.2 ->
  product n k m (flip 0 t) = (product m k n t)^T.
Proof.
  move=> Hu Hv. have [_ Es _ E1 E2] := flip_ok Hu Hv. by rewrite /product E1 E2 Es !trmx_mul dg_tr mulmxA.
Qed.

(** Shapes of the factors in the oriented form, with the product. *)
Definition oriented (axis : ax) (m k q : nat) (t : mat R * list R * mat R) : Prop :=
  [/\ oshape axis m k (match axis with Cols => t.1.1 | Rows => t.2 end), size t.1.2 = k
    & oshape axis k q (match axis with Cols => t.2 | Rows => t.1.1 end)].
Definition oproduct (axis : ax) (m k q : nat) (t : mat R * list R * mat R) : 'M[R]_(m, q) :=
  match axis with Cols => product m k q t | Rows => (product q k m t)^T end.

Lemma oriented_shape axis m k q t : oriented axis m k q t ->
  [/\ shape m k (orient axis t).1.1, size (orient axis t).1.2 = k, shape k q (orient axis t).2
    & product m k q (orient axis t) = oproduct axis m k q t].
Proof.
  case: axis => -[] /= H1 H2 H3 //. have [A1 A2 A3 _ _] := flip_ok H3 H1.
  by rewrite A2; split => //; rewrite flip_product.
Qed.

Lemma orient_back axis m k q t : shape m k t.1.1 -> size t.1.2 = k -> shape k q t.2 ->
  oriented axis m k q (orient axis t) /\ oproduct axis m k q (orient axis t) = product m k q t /\
  mx m k (orient axis (orient axis t)).1.1 = mx m k t.1.1 /\ mx k q (orient axis (orient axis t)).2 = mx k q t.2.
Proof.
  case: axis => H1 H2 H3 /=; last by split.
  have [A1 A2 A3 A4 A5] := flip_ok H1 H3. have [B1 B2 B3 B4 B5] := flip_ok A1 A3.
  by rewrite /oriented /= A2 flip_product // trmxK B4 B5 A4 A5 !trmxK.
Qed.
End Orient.

Section Vec.
Variable R : realFieldType.
Variables (qr : mat R -> res (mat R * mat R)) (rsvd : mat R -> nat -> res (mat R * list R * mat R)).
Variables (exceeds_eps : R -> bool) (sqrt : R -> R) (eps : R).
Hypothesis QR : qr_ok qr.
Hypothesis TR : truncated_ok rsvd.
Hypothesis LL : lossless rsvd.
Hypothesis SQ : sqrt_ok sqrt.
Hypothesis EP : 0 < eps.
Notation update := (update_svd_new_vectors (0 : R) 1 +%R *%R (fun x y => x - y) qr rsvd exceeds_eps).
Notation rec := (record (0 : R) +%R *%R (fun x y => x - y) (fun x y => x / y) (fun k => k%:R) sqrt eps).
Notation incr axis := (get_incremental_svd_triple (0 : R) 1 +%R *%R (fun x y => x - y) qr rsvd exceeds_eps axis).
Notation loop := (vec_loop (0 : R) +%R *%R (fun x y => x - y) (fun x y => x / y) (fun k => k%:R) sqrt eps).

(** Factors that multiply to [T] with no rank to spare. *)
Definition tight m k q (t : mat R * list R * mat R) (T : 'M[R]_(m, q)) : Prop :=
  [/\ (mx m k t.1.1)^T *m mx m k t.1.1 = 1%:M, mx k q t.2 *m (mx k q t.2)^T = 1%:M,
      product m k q t = T & \rank T = k].

Lemma update_shapes m r q nc u s vt nv t : shape m r u -> size s = r -> shape r q vt -> shape m nc nv ->
  (nc <= m)%N -> (0 < r + nc)%N -> (r <= m)%N -> update u (SVec s) vt nv = Ok t ->
  [/\ shape m r t.1.1, size t.1.2 = r & shape r (q + nc) t.2].
Proof.
  case: t => [[u2 s2] v2t] Hu Hs Hv Hn L0 L1 Lr E.
  have Hss : sshape r r (SVec s) by [].
  have := update_main exceeds_eps QR (truncated_rsvd_ok TR) Hu Hss Hv Hn L0 L1. rewrite E.
  move=> [p [dq [u1 [vt1 [L [W [l [[E2 [Hd1 Hd2] /andP [Hp1 Hp2]] _ [A1 A2 A3 A4 A5] _ _]]]]]]]].
  have [_ /= El _ _ _] := TR E2. rewrite Hd1 Hd2 A2 in El.
  have Er : l = r.
    rewrite El. apply/minn_idPl. rewrite leq_min leq_addr andbT. apply: leq_trans Hp1. by rewrite leq_min Lr leq_addr.
  by split=> /=; rewrite -Er.
Qed.

Lemma update_tight m r q nc u s vt nv t (T : 'M[R]_(m, q)) : shape m r u -> size s = r -> shape r q vt -> shape m nc nv ->
  (nc <= m)%N -> (0 < r + nc)%N -> (r <= m)%N -> update u (SVec s) vt nv = Ok t ->
  tight r (u, s, vt) T -> (\rank (row_mx T (mx m nc nv)) <= r)%N -> tight r t (row_mx T (mx m nc nv)).
Proof.
  case: t => [[u2 s2] v2t] Hu Hs Hv Hn L0 L1 Lr E [Ou Ov PT RT] RB.
  have [Hu2 Hs2 Hv2] := update_shapes Hu Hs Hv Hn L0 L1 Lr E. rewrite /= in Hu2 Hs2 Hv2.
  have Hss : sshape r r (SVec s) by [].
  have ES : mx m r u *m smx r r (SVec s) *m mx r q vt = T.
    rewrite -PT /product /=. congr (_ *m _ *m _). apply/matrixP => i j. by rewrite !mxE -val_eqE.
  have RB' : \rank (row_mx T (mx m nc nv)) = r.
    apply/eqP. rewrite eqn_leq RB /= -{1}RT. exact: rank_row_l.
  have LB : low_rank r (row_mx T (mx m nc nv)) by apply/low_rankE.
  have P2 := append_vectors_low QR (truncated_rsvd_ok TR) LL Hu Hss Hv Hn L0 L1 Ou Ov E. cbv zeta in P2.
  rewrite ES in P2. have {}P2 := P2 LB.
  have := update_main exceeds_eps QR (truncated_rsvd_ok TR) Hu Hss Hv Hn L0 L1. rewrite E ES.
  move=> [p [dq [u1 [vt1 [L [W [l [[E2 Hd Hp] PR [A1 A2 A3 A4 A5] [Eu Ev] [OW [_ [LOW NRM]]]]]]]]]]].
  have El : l = r by rewrite -A2 Hs2. clear A2; subst l.
  have [K EK] := LOW Ou Ov.
  have Q := lossless_at LL E2 Hd. rewrite EK in Q. have {}Q := Q (low_rank_mul _ _ LB). rewrite -EK /= Hs2 in Q.
  have [_ _ _ O1 O2] := TR E2. case: (Hd) => D1 D2. rewrite /= D1 D2 in O1 O2.
  have Em : minn r (minn p (r + nc)) = r.
    have [_ /= El _ _ _] := TR E2. by rewrite D1 D2 Hs2 in El.
  rewrite Em in O1 O2.
  have Ov2 : mx r (q + nc) v2t *m (mx r (q + nc) v2t)^T = 1%:M.
    by rewrite Ev trmx_mul mulmxA -(mulmxA _ W) OW // mulmx1.
  rewrite Hs2 in P2. split => //.
  (* the singular values are invertible *)
  have Rs : (r <= \rank (dg r s2))%N.
    rewrite -{1}RB' -P2 /product /=. apply: leq_trans (mxrankM_maxl _ _) _. exact: mxrankM_maxr.
  have Us : dg r s2 \in unitmx by rewrite -row_free_unit -row_leq_rank.
  have := NRM Ou. rewrite trmx_mul -Q /product /=.
  set D := dg r s2. set V := mx r (r + nc) vt1. set U := mx p r u1.
  move=> EQ.
  have EQ' : D *m ((L *m U)^T *m (L *m U)) *m D = D *m D.
    have X1 : V *m ((U *m D *m V)^T *m L^T *m (L *m (U *m D *m V))) *m V^T = D *m ((L *m U)^T *m (L *m U)) *m D.
      rewrite !trmx_mul /D dg_tr !mulmxA O2 mul1mx -!mulmxA O2 mulmx1 !mulmxA. by [].
    rewrite -X1 EQ !trmx_mul /D dg_tr !mulmxA O2 mul1mx -(mulmxA _ V) O2 mulmx1 -(mulmxA _ U^T) O1 mulmx1. by [].
  have EQ2 : D *m ((L *m U)^T *m (L *m U)) = D by apply: (can_inj (mulmxK Us)).
  rewrite Eu. apply: (can_inj (mulKmx Us)). by rewrite mulmx1.
Qed.

Lemma concatenate_ok axis m q nc (a b : mat R) : oshape axis m q a -> oshape axis m nc b ->
  exists2 c, concatenate 0 axis a b = Ok c & oshape axis m (q + nc) c /\ omx axis m (q + nc) c = row_mx (omx axis m q a) (omx axis m nc b).
Proof.
  case: axis => /= Ha Hb; last exact: hstack_ok.
  case: (Ha) => A1 A2. case: (Hb) => B1 B2. rewrite A2 B2 eqb_eqn eqxx A1 B1 plusE.
  eexists; first by reflexivity. split; first exact: shape_build.
  rewrite mx_build. apply/matrixP => i j. rewrite !mxE ltb_ltn.
  case: splitP => k Ek; rewrite !mxE Ek.
  by [].
  by rewrite minusE addKn.
Qed.

(** Blocks of consecutive positions. *)
Fixpoint ends (q : nat) (bs : list (list nat)) : list nat :=
  match bs with [::] => [::] | b :: rest => (q + size b)%N :: ends (q + size b) rest end.

Lemma concat_seq b bs q N : List.concat (b :: bs) = List.seq q N ->
  b = List.seq q (size b) /\ exists N', N = (size b + N')%N /\ List.concat bs = List.seq (q + size b) N'.
Proof.
  rewrite /=. elim: b q N => [|x b IH] q N /=; first by move=> ->; split=> //; exists N; rewrite addn0.
  case: N => [|N] //= [-> E]. have [E1 [N' [E2 E3]]] := IH _ _ E.
  by split; [rewrite -E1|exists N'; rewrite E2 addSn E3 addSnnS].
Qed.

Lemma slices_ok axis m n q nc (c : mat R) : oshape axis m n c -> (q + nc <= n)%N ->
  oshape axis m nc (slices 0 axis c (List.seq q nc)) /\
  row_mx (omx axis m q c) (omx axis m nc (slices 0 axis c (List.seq q nc))) = omx axis m (q + nc) c.
Proof.
  case: axis => /= -[C1 C2] Hq; rewrite ?C1 ?C2 List.seq_length; split; try exact: shape_build; rewrite mx_build.
  - apply/matrixP => i j. rewrite !mxE. case: splitP => k Ek; rewrite !mxE Ek //.
    rewrite List.seq_nth; [by rewrite plusE|by apply/ssrnat.ltP].
  - apply/matrixP => i j. rewrite !mxE. case: splitP => k Ek; rewrite !mxE Ek //.
    rewrite List.seq_nth; [by rewrite plusE|by apply/ssrnat.ltP].
Qed.

Lemma rank_omx axis m q nc (c : mat R) : (\rank (omx axis m q c) <= \rank (omx axis m (q + nc) c))%N.
Proof.
  have {1}-> : omx axis m q c = omx axis m (q + nc) c *m (\matrix_(i < q + nc, j < q) (i == j :> nat)%:R).
    apply/matrixP => i j. rewrite mxE.
    have Hj : (j < q + nc)%N by apply: ltn_addr.
    rewrite (bigD1 (Ordinal Hj)) //= big1 ?addr0 => [|k Hk].
      by rewrite mxE /= eqxx mulr1; case: axis; rewrite /omx !mxE.
    rewrite mxE. case: eqP => [E|_]; last by rewrite mulr0. by case/eqP: Hk; apply: val_inj.
  exact: mxrankM_maxl.
Qed.

Lemma rank_omx_le axis m q q' (c : mat R) : (q <= q')%N -> (\rank (omx axis m q c) <= \rank (omx axis m q' c))%N.
Proof. by move=> /subnKC <-; exact: rank_omx. Qed.

Lemma ends_le q bs : forall x, x \in ends q bs -> (q <= x)%N.
Proof.
  elim: bs q => [|b bs IH] q x //=. rewrite inE => /orP [/eqP ->|/IH]; first exact: leq_addr.
  exact: leq_trans (leq_addr _ _).
Qed.

Lemma forall2_mono A (B : eqType) (P Q : A -> B -> Prop) xs ys : List.Forall2 P xs ys ->
  (forall x y, y \in ys -> P x y -> Q x y) -> List.Forall2 Q xs ys.
Proof.
  elim=> [|x y xs' ys' H _ IH] K; first by constructor.
  constructor; first by apply: K; rewrite ?mem_head.
  by apply: IH => z w Hw; apply: K; rewrite inE Hw orbT.
Qed.

(** The recorded shape for [q] slices. *)
Definition oshape_of (axis : ax) (m q : nat) : nat * nat := match axis with Cols => (m, q) | Rows => (q, m) end.

Lemma orecord axis m k q t target : oriented axis m k q t -> oshape axis m q target -> (0 < m)%N -> (0 < q)%N ->
  exists2 x, rec t target = Ok (Some x, oshape_of axis m q) & 0 <= x /\ (x = 0 <-> oproduct axis m k q t = omx axis m q target).
Proof.
  move=> [H1 H2 H3] Ht Hm Hq. have P : (0 < m * q)%N by rewrite muln_gt0 Hm.
  case: axis H1 H3 Ht => /= H1 H3 Ht.
  - have [e -> H] := record_ok SQ EP H3 H2 H1 Ht. rewrite mulnC in P. have [x -> [X0 X1]] := H P.
    exists x => //. split=> //. rewrite X1. split=> [->|/(congr1 trmx)] //. by rewrite !trmxK.
  - have [e -> H] := record_ok SQ EP H1 H2 H3 Ht. by have [x -> X] := H P; exists x.
Qed.

Lemma oproduct_rank axis m k q (t : mat R * list R * mat R) : (\rank (oproduct axis m k q t) <= k)%N.
Proof. by case: axis; rewrite /= ?mxrank_tr; exact: rank_product. Qed.

(** What a record says about the leading [q] slices of [c], for a kept rank [r]. *)
Definition says axis m r (c : mat R) (good : Prop) (x : option R * (nat * nat)) (q : nat) : Prop :=
  x.2 = oshape_of axis m q /\
  exists2 e, x.1 = Some e & [/\ 0 <= e, e = 0 -> (\rank (omx axis m q c) <= r)%N & good -> (\rank (omx axis m q c) <= r)%N -> e = 0].

Lemma incr_loop axis m n r rank (c : mat R) : oshape axis m n c -> (r <= m)%N ->
  forall bs q i target t N, i != 0%N -> oshape axis m q target -> omx axis m q target = omx axis m q c -> oriented axis m r q t ->
  List.concat bs = List.seq q N -> (q + N = n)%N -> all (fun b => (0 < size b <= m)%N) bs ->
  match loop (incr axis) axis rank i (Some target) (Some t) (List.map (slices 0 axis c) bs) with
  | Err e => (exists x, qr x = Err e) \/ (exists x r, rsvd x r = Err e)
  | Ok recs => List.Forall2 (says axis m r c (tight r (orient axis t) (omx axis m q c))) recs (ends q bs)
  end.
Proof.
  move=> Hc Hr. elim=> [|b bs IH] q i target t N Hi Ht Et Ot EC EN /=; first by move=> _; constructor.
  move=> /andP [/andP [Hb0 Hbm] Hbs].
  have [Eb [N' [EN' EC']]] := concat_seq EC.
  have Hqb : (q + size b <= n)%N by rewrite -EN EN' addnA leq_addr.
  have := slices_ok Hc Hqb. rewrite -Eb. move=> [Hsl Esl].
  have [target' -> [Ht' Et']] := concatenate_ok Ht Hsl. rewrite /=. rewrite Et Esl in Et'.
  rewrite /get_incremental_svd_triple eqb_eqn (negbTE Hi).
  have [S1 S2 S3 S4] := oriented_shape Ot.
  rewrite -/(orient axis t).
  set chunk' := match axis with Rows => _ | Cols => _ end.
  have [Hch Ech] : shape m (size b) chunk' /\ mx m (size b) chunk' = omx axis m (size b) (slices 0 axis c b).
    rewrite /chunk'. case: (axis) Hsl => /= Hsl //. exact: transpose_ok.
  move: S1 S2 S3 S4. case Eo : (orient axis t) => [[u s] vt] /= S1 S2 S3 S4.
  have L1 : (0 < r + size b)%N by rewrite addn_gt0 Hb0 orbT.
  have Hss : sshape r r (SVec s) by [].
  have ERR := update_main exceeds_eps QR (truncated_rsvd_ok TR) S1 Hss S3 Hch Hbm L1.
  case E : (update u (SVec s) vt chunk') => [t'|e] /=; last first.
    rewrite E in ERR. case: ERR => [X|[x X]]; [by left|by right; exists x, r].
  have [U1 U2 U3] := update_shapes S1 S2 S3 Hch Hbm L1 Hr E.
  have [B1 [B2 [B3 B4]]] := orient_back axis U1 U2 U3.
  have Hm : (0 < m)%N by apply: leq_trans Hb0 Hbm.
  have Hq : (0 < q + size b)%N by rewrite addn_gt0 Hb0 orbT.
  have [x Ex [X0 X1]] := orecord B1 Ht' Hm Hq. rewrite /orient in Ex. rewrite Ex /=.
  have := IH (q + size b)%N i.+1 target' (orient axis t') N' isT Ht' Et' B1 EC'.
  rewrite -addnA -EN' EN. move=> /(_ erefl Hbs).
  rewrite /orient. case: (loop _ _ _ _ _ _ _) => [xs|e] //= HX.
  have TI : tight r (u, s, vt) (omx axis m q c) -> (\rank (omx axis m (q + size b) c) <= r)%N ->
            tight r t' (omx axis m (q + size b) c).
    move=> T. rewrite -Esl -Ech. exact: (update_tight S1 S2 S3 Hch Hbm L1 Hr E T).
  constructor.
  - split=> //. exists x => //. split=> //.
    + move=> E0. have <- : oproduct axis m r (q + size b) (orient axis t') = omx axis m (q + size b) c by rewrite -Et'; apply/X1.
      exact: oproduct_rank.
    + move=> T RK. apply/X1. by rewrite B2 Et'; case: (TI T RK).
  - move: HX. rewrite -/(orient axis t') -/(orient axis (orient axis t')). 
    move=> H. apply: (forall2_mono H) => z y Hy.
    case=> Z1 [e Z2 [Z3 Z4 Z5]]. split=> //. exists e => //. split=> // T RK. apply: Z5 => //.
    have RK1 : (\rank (omx axis m (q + size b) c) <= r)%N.
      apply: leq_trans RK. apply: rank_omx_le. exact: ends_le Hy.
    case: (TI T RK1) => O1 O2 P3 P4. have [_ _ _ P5] := oriented_shape B1.
    by split=> //; rewrite ?B3 ?B4 // P5 B2.
Qed.
End Vec.
