(** The experiment with new diagonal blocks. *)
From Coq Require Import ZArith QArith Lia.
From Verif Require Import Prelude Tensor_model Matrix_model Matrix_spec Attention_model LinAlg_model Steps_model Steps_ratio.
From Verif Require Matrix_main.
Set Warnings "-notation-overridden".
From mathcomp Require Import all_ssreflect all_algebra.
From Verif Require Import LinAlg_spec LinAlg_bridge LinAlg_psi LinAlg_block Upd_spec Exact_spec Exact_main Exact_final Steps_spec Steps_err Steps_vec Steps_exp.
Set Implicit Arguments.
Unset Strict Implicit.
Unset Printing Implicit Defensive.
Import Order.TTheory GRing.Theory Num.Theory.
Local Open Scope ring_scope.

Section Block.
Variable R : realFieldType.
Variables (svd : mat R -> res (mat R * list R * mat R)) (rsvd : mat R -> nat -> res (mat R * list R * mat R)).
Variables (argsort : list R -> list nat) (sqrt : R -> R) (eps : R).
Hypothesis SV : svd_ok svd.
Hypothesis NN : nonneg_svd svd.
Hypothesis AS : argsort_ok (fun x y : R => x <= y) argsort.
Hypothesis TR : truncated_ok rsvd.
Hypothesis LL : lossless rsvd.
Hypothesis NR : nonneg_rsvd rsvd.
Hypothesis SQ : sqrt_ok sqrt.
Hypothesis EP : 0 < eps.
Notation update := (update_svd_new_submatrix (0 : R) +%R *%R svd rsvd argsort).
Notation rec := (record (0 : R) +%R *%R (fun x y => x - y) (fun x y => x / y) (fun k => k%:R) sqrt eps).
Notation incr := (get_incremental_svd_triple_block (0 : R) +%R *%R svd rsvd argsort).
Notation loop := (mtx_loop (0 : R) +%R *%R (fun x y => x - y) (fun x y => x / y) (fun k => k%:R) sqrt eps).
Notation dynamics := (dynamics_mtx (0 : R) +%R *%R (fun x y => x - y) (fun x y => x / y) (fun k => k%:R) sqrt eps).

Variables (st sz : nat -> nat) (c : mat R).
Hypothesis ST : forall k, st k.+1 = (st k + sz k)%N.
Hypothesis ST0 : st 0%N = 0%N.
Notation D k := (diagonal_part st k c (st k)).

Lemma st_mono j k : (j <= k)%N -> (st j <= st k)%N.
Proof. move/subnKC => <-. elim: (k - j)%N => [|d IH]; rewrite ?addn0 // addnS ST. by apply: leq_trans IH _; exact: leq_addr. Qed.

Lemma diagonal_next k (b : mat R) : shape (sz k) (sz k) b ->
  (forall x y, (x < sz k)%N -> (y < sz k)%N -> mget 0 b x y = mget 0 c (st k + x) (st k + y)) ->
  block_mx (D k) 0 0 (mx (sz k) (sz k) b) = diagonal_part st k.+1 c (st k + sz k)%N.
Proof.
  move=> Hb Cb. apply/matrixP => i j. rewrite [RHS]mxE.
  have -> : iota 0 k.+1 = rcons (iota 0 k) k by rewrite -(addn1 k) iotaD cats1.
  rewrite has_rcons ST !mxE.
  have OLD : forall (x : 'I_(sz k)) (y : nat), has (fun b0 => ((st b0 <= st k + x < st b0.+1)%N && (st b0 <= y < st b0.+1)%N)) (iota 0 k) = false.
    move=> x y. apply/hasPn => d. rewrite mem_iota add0n => /andP [_ Hd]. apply/negP => /andP [/andP [_ H] _].
    have := leq_trans H (st_mono Hd). by rewrite ltnNge leq_addr.
  have OLD' : forall (x : 'I_(sz k)) (y : nat), has (fun b0 => ((st b0 <= y < st b0.+1)%N && (st b0 <= st k + x < st b0.+1)%N)) (iota 0 k) = false.
    move=> x y. rewrite -(OLD x y). by apply: eq_has => d; rewrite andbC.
  case: splitP => i' Ei; rewrite !mxE; case: splitP => j' Ej; rewrite !mxE Ei Ej.
  - by rewrite leqNgt (ltn_ord i') /=.
  - by rewrite leqNgt (ltn_ord i') /= OLD'.
  - by rewrite [(st k <= j')%N]leqNgt (ltn_ord j') /= andbF OLD.
  - by rewrite !leq_addr !ltn_add2l !ltn_ord /= Cb.
Qed.

Lemma rank_diag_next m n (A : 'M[R]_m) (B : 'M[R]_n) : (\rank A <= \rank (block_mx A 0 0 B))%N.
Proof.
  have {1}-> : A = row_mx 1%:M 0 *m block_mx A 0 0 B *m col_mx 1%:M 0.
    by rewrite mul_row_block !mul1mx !mul0mx !addr0 mul_row_col mulmx1 mulmx0 addr0.
  apply: leq_trans (mxrankM_maxl _ _) _. exact: mxrankM_maxr.
Qed.

Definition block_at k (b : mat R) : Prop := shape (sz k) (sz k) b /\
  forall x y, (x < sz k)%N -> (y < sz k)%N -> mget 0 b x y = mget 0 c (st k + x) (st k + y).
Definition blocks_from k (bs : list (mat R)) : Prop := forall j b, List.nth_error bs j = Some b -> block_at (k + j) b.

Lemma rank_D_le k k1 : (k <= k1)%N -> (\rank (D k) <= \rank (D k1))%N.
Proof.
  move/subnKC => <-. elim: (k1 - k)%N => [|d IH]; rewrite ?addn0 // addnS. apply: leq_trans IH _.
  pose b := build (sz (k + d)) (sz (k + d)) (fun x y => mget 0 c (st (k + d) + x) (st (k + d) + y)).
  have Hb : shape (sz (k + d)) (sz (k + d)) b by exact: shape_build.
  have Cb : forall x y, (x < sz (k + d))%N -> (y < sz (k + d))%N -> mget 0 b x y = mget 0 c (st (k + d) + x) (st (k + d) + y).
    by move=> x y Hx Hy; rewrite build_mget.
  rewrite ST -(diagonal_next Hb Cb). exact: rank_diag_next.
Qed.

(** What a record says about the first [k] blocks. *)
Definition bsays r (good : Prop) (x : option R * (nat * nat)) (k : nat) : Prop :=
  x.2 = (st k, st k) /\
  exists2 e, x.1 = Some e & [/\ 0 <= e, e = 0 -> (\rank (D k) <= r)%N & good -> (\rank (D k) <= r)%N -> e = 0].

Definition factors_of r N (t : mat R * list R * mat R) : Prop := svd_factors N r N t /\ all (fun y => 0 <= y) t.1.2.

Lemma fold_block (l : list (mat R)) b : l <> [::] -> block_diag_list 0 (l ++ [:: b])%list = block_diag 0 (block_diag_list 0 l) b.
Proof. case: l => // x l _ /=. by rewrite List.fold_left_app. Qed.

Lemma block_step r N sz' t b t' : factors_of r N t -> shape sz' sz' b -> update t.1.1 (SVec t.1.2) t.2 b = Ok t' ->
  factors_of r (N + sz') t' /\
  (low_rank r (block_mx (product N r N t) 0 0 (mx sz' sz' b)) -> product (N + sz') r (N + sz') t' = block_mx (product N r N t) 0 0 (mx sz' sz' b)).
Proof.
  case: t t' => [[u s] vt] [[u2 s2] v2t] [[/= H1 H2 H3 H4 H5] H6] Hb E.
  have := update_vec_main rsvd SV AS H1 H2 H3 Hb. rewrite E.
  move=> [u1 [s1 [v1t [E1 [idx [rest [[A1 A2 A3] [PI SI _ _] [_ VAL _] _ [_ OU OV]]]]]]]].
  split.
    split; first by split=> //=; [exact: OU|exact: OV].
    apply/(all_nthP 0) => j /=. rewrite A2 => Hj. rewrite VAL //.
    have : all (fun y => 0 <= y) (s ++ s1) by rewrite all_cat H6 (NN E1).
    move/(all_nthP 0); apply. rewrite size_cat H2. have [_ -> _ _ _] := SV E1. case: (Hb) => -> ->.
    have : nth 0%N idx j \in idx ++ rest by rewrite mem_cat mem_nth ?SI.
    by rewrite (perm_mem PI) mem_iota.
  move=> LB. by have [_] := append_block_largest_low SV NN AS H1 H2 H3 Hb H6 H4 H5 E LB.
Qed.

Lemma bl_loop r rank : forall chunks i done t, done <> [::] -> (0 < st i)%N -> i != 0%N ->
  shape (st i) (st i) (block_diag_list 0 done) -> mx (st i) (st i) (block_diag_list 0 done) = D i ->
  factors_of r (st i) t -> blocks_from i chunks ->
  match loop incr rank i (Some t) done chunks with
  | Err e => (exists x, svd x = Err e)
  | Ok recs => List.Forall2 (bsays r (product (st i) r (st i) t = D i)) recs (iota i.+1 (size chunks))
  end.
Proof.
  elim=> [|b chunks IH] i dn t Hd HN Hi Hs Es Ft Hbs /=; first by constructor.
  have [Hb Cb] := Hbs 0%N b erefl. rewrite addn0 in Hb Cb.
  rewrite eqb_eqn (negbTE Hi) fold_block //. set T := block_diag 0 _ b.
  have [HT ET] := block_diag_ok Hs Hb. rewrite -/T Es (diagonal_next Hb Cb) in HT ET.
  rewrite /get_incremental_svd_triple_block eqb_eqn (negbTE Hi).
  case: t Ft => [[u s] vt] Ft. have := Ft => -[[/= H1 H2 H3 H4 H5] H6].
  have ERR := update_vec_main rsvd SV AS H1 H2 H3 Hb.
  case E : (update u (SVec s) vt b) => [t'|e] /=; last by rewrite E in ERR; exists b.
  have [Ft' Ex'] := block_step Ft Hb E. have [[G1 G2 G3 G4 G5] G6] := Ft'.
  have HN' : (0 < (st i + sz i) * (st i + sz i))%N by rewrite muln_gt0 addn_gt0 HN.
  have [e -> Re] := record_ok SQ EP G1 G2 G3 HT. have [x Ee [X0 X1]] := Re HN'. subst e. rewrite /=.
  have Hd' : (dn ++ [:: b])%list <> [::] by case: (dn).
  have HN2 : (0 < st i.+1)%N by rewrite ST addn_gt0 HN.
  have Hbs' : blocks_from i.+1 chunks by move=> j b' Eb'; rewrite addSnnS; apply: Hbs.
  have := IH i.+1 (dn ++ [:: b])%list t' Hd' HN2 isT.
  rewrite ST fold_block // -/T => /(_ HT ET Ft' Hbs').
  rewrite /get_incremental_svd_triple_block. case: (loop _ _ _ _ _ _) => [xs|e] //= HX.
  have EX : product (st i) r (st i) (u, s, vt) = D i -> (\rank (D i.+1) <= r)%N -> product (st i + sz i) r (st i + sz i) t' = diagonal_part st i.+1 c (st i + sz i).
    rewrite ST => P RK. rewrite /= P (diagonal_next Hb Cb) in Ex'. apply: Ex'. by apply/low_rankE.
  constructor.
  - split; first by rewrite ST. exists x => //. split=> //.
    + move/X1 => P. rewrite ST -ET -P. exact: rank_product.
    + move=> P RK. apply/X1. rewrite ET. exact: EX.
  - apply: (forall2_mono HX) => y j Hj [S2 [e Ee [P1 P2 P3]]]. split=> //. exists e => //. split=> // P RK.
    apply: P3 => //. apply: EX => //. apply: leq_trans RK. apply: rank_D_le.
    by move: Hj; rewrite mem_iota => /andP [/ltnW].
Qed.

Lemma first_block b : block_at 0 b -> shape (st 1) (st 1) b /\ mx (st 1) (st 1) b = D 1%N.
Proof.
  move=> [Hb Cb]. have S1 : st 1 = sz 0%N by rewrite ST ST0 add0n.
  rewrite {1 2}S1. split=> //.
  apply/matrixP => x y. rewrite !mxE /= orbF ST0 !ltn_ord /=.
  by rewrite Cb ?ST0 // -S1.
Qed.

Lemma bb_loop rank : forall chunks i done t, (0 < st i.+1)%N ->
  (i != 0%N -> [/\ done <> [::], shape (st i) (st i) (block_diag_list 0 done) & mx (st i) (st i) (block_diag_list 0 done) = D i]) ->
  (i = 0%N -> done = [::]) -> blocks_from i chunks ->
  match loop (get_svd_triple rsvd) rank i t done chunks with
  | Err e => (exists x r, rsvd x r = Err e)
  | Ok recs => List.Forall2 (bsays rank True) recs (iota i.+1 (size chunks))
  end.
Proof.
  elim=> [|b chunks IH] i dn t HN Hd Hd0 Hbs /=; first by constructor.
  have [Hb Cb] := Hbs 0%N b erefl. rewrite addn0 in Hb Cb.
  have {Hd} [HT ET] : shape (st i.+1) (st i.+1) (block_diag_list 0 (dn ++ [:: b])%list)
     /\ mx (st i.+1) (st i.+1) (block_diag_list 0 (dn ++ [:: b])%list) = D i.+1.
    case: (eqVneq i 0%N) => Hi.
      rewrite (Hd0 Hi) Hi. apply: first_block. by split; rewrite -Hi.
    have [Hdn Hs Es] := Hd Hi. rewrite fold_block // ST. have [H1 H2] := block_diag_ok Hs Hb. split=> //. by rewrite H2 Es (diagonal_next Hb Cb).
  have -> : (if Nat.eqb i 0 then b else block_diag_list 0 (dn ++ [:: b])%list) = block_diag_list 0 (dn ++ [:: b])%list.
    rewrite eqb_eqn. case: eqP => // Hi. by rewrite (Hd0 Hi).
  set T := block_diag_list 0 _ in HT ET *.
  rewrite /get_svd_triple. case E : (rsvd T rank) => [t'|e] /=; last by exists T, rank.
  have [F1 F2 F3 F4 F5] := TR E. have LX := LL E. rewrite F2 in LX. case: (HT) => R1 R2. rewrite R1 R2 in LX F1 F2 F3.
  have HN' : (0 < st i.+1 * st i.+1)%N by rewrite muln_gt0 HN.
  have [e -> Re] := record_ok SQ EP F1 F2 F3 HT. have [x Ee [X0 X1]] := Re HN'. subst e. rewrite /=.
  have Hd' : (dn ++ [:: b])%list <> [::] by case: (dn).
  have HN2 : (0 < st i.+2)%N by rewrite ST addn_gt0 HN.
  have Hbs' : blocks_from i.+1 chunks by move=> j b' Eb'; rewrite addSnnS; apply: Hbs.
  have := IH i.+1 (dn ++ [:: b])%list (Some t') HN2 (fun _ => And3 Hd' HT ET) (fun H => False_ind _ (O_S _ (esym H))) Hbs'.
  rewrite /get_svd_triple. case: (loop _ _ _ _ _ _) => [xs|e] //= HX.
  constructor=> //. split=> //. exists x => //. split=> //.
  - move/X1 => P. rewrite -ET -P. apply: leq_trans (rank_product _ _ _ _) _. exact: geq_minl.
  - move=> _ RK. apply/X1. apply: LX. apply/low_rankE. by rewrite ET.
Qed.

Lemma bi_loop rank chunks : (0 < st 1)%N -> blocks_from 0 chunks ->
  match loop incr rank 0 None [::] chunks with
  | Err e => (exists x, svd x = Err e) \/ (exists x r, rsvd x r = Err e)
  | Ok recs => List.Forall2 (bsays (minn rank (st 1)) True) recs (iota 1 (size chunks))
  end.
Proof.
  case: chunks => [|b chunks] HN Hbs /=; first by constructor.
  have [Hb Cb] := Hbs 0%N b erefl. rewrite addn0 in Hb Cb.
  have [HT ET] := first_block (conj Hb Cb).
  rewrite {1}/get_incremental_svd_triple_block /=. case E : (rsvd b rank) => [t'|e] /=; last by right; exists b, rank.
  have [F1 F2 F3 F4 F5] := TR E. have LX := LL E. rewrite F2 in LX. case: (HT) => R1 R2. rewrite R1 R2 minnn in LX F1 F2 F3 F4 F5.
  have HN' : (0 < st 1 * st 1)%N by rewrite muln_gt0 HN.
  have [e -> Re] := record_ok SQ EP F1 F2 F3 HT. have [x Ee [X0 X1]] := Re HN'. subst e. rewrite /=.
  have Hbs' : blocks_from 1 chunks by move=> j b' Eb'; rewrite addSnnS; apply: Hbs.
  have Ft : factors_of (minn rank (st 1)) (st 1) t' by split; [split|exact: NR E].
  have := bl_loop rank (done := [:: b]) _ HN isT HT ET Ft Hbs'.
  have N1 : [:: b] <> [::] by [].
  move=> /(_ N1). case: (loop _ _ _ _ _ _) => [xs|e] /= HX; last by left.
  have G : (\rank (D 1%N) <= rank)%N -> product (st 1) (minn rank (st 1)) (st 1) t' = D 1%N.
    move=> RK. rewrite -ET. apply: LX. apply/low_rankE. by rewrite ET.
  constructor.
    split=> //. exists x => //. split=> //.
    - move/X1 => P. rewrite -ET -P. exact: rank_product.
    - move=> _ RK. apply/X1. rewrite ET. apply: G. apply: leq_trans RK _. exact: geq_minl.
  apply: (forall2_mono HX) => y j Hj [S2 [e Ee [P1 P2 P3]]]. split=> //. exists e => //. split=> // _ RK.
  apply: P3 => //. apply: G. apply: leq_trans (leq_trans RK (geq_minl _ _)). apply: rank_D_le.
  by move: Hj; rewrite mem_iota => /andP [/ltnW].
Qed.
End Block.

Section Main.
Variable R : realFieldType.
Variables (svd : mat R -> res (mat R * list R * mat R)) (rsvd : mat R -> nat -> res (mat R * list R * mat R)).
Variables (argsort : list R -> list nat) (sqrt : R -> R) (eps : R).
Hypothesis SV : svd_ok svd.
Hypothesis NN : nonneg_svd svd.
Hypothesis AS : argsort_ok (fun x y : R => x <= y) argsort.
Hypothesis TR : truncated_ok rsvd.
Hypothesis LL : lossless rsvd.
Hypothesis NR : nonneg_rsvd rsvd.
Hypothesis SQ : sqrt_ok sqrt.
Hypothesis EP : 0 < eps.
Notation incr := (get_incremental_svd_triple_block (0 : R) +%R *%R svd rsvd argsort).
Notation dynamics := (dynamics_mtx (0 : R) +%R *%R (fun x y => x - y) (fun x y => x / y) (fun k => k%:R) sqrt eps).

Variables (n : nat) (c : mat R) (rank : nat) (rf rn : Q) (i0 w : nat).
Hypothesis Hc : shape n n c.
Hypothesis H01 : fraction rf.
Hypothesis HN : nonneg rn.
Hypothesis F0 : part_of n rf i0.
Hypothesis F1 : part_of (n - i0) rn w.
Hypothesis I0 : (0 < i0)%N.
Notation st := (block_start i0 w).
Notation sz := (block_size i0 w).

Lemma st_next k : st k.+1 = (st k + sz k)%N.
Proof. case: k => [|k]; rewrite /block_start /block_size -?plusE; lia. Qed.

Lemma block_facts :
  (w = 0%N -> split_mtx_block_diag 0 c rf rn = Err ZeroDivisionError) /\
  ((0 < w)%N -> exists2 bs, split_mtx_block_diag 0 c rf rn = Ok bs &
      (exists2 K, (K * w <= n - i0 < K * w + w)%N & size bs = K.+1) /\ blocks_from st sz c 0 bs).
Proof.
  have SQR : mr c = mc c by case: Hc => -> ->.
  have [i1 [w1 [E0 [E1 [Z S]]]]] := Matrix_main.block_diag_main 0 c rf rn (proj1 H01) (proj2 H01) HN SQR.
  have EC : mc c = n by case: Hc.
  rewrite EC in E0 E1 S. have Ei := floor_uniq E0 F0. subst i1. rewrite minusE in E1. have Ew := floor_uniq E1 F1. subst w1.
  split=> // W0. have /S [bs [E [LN [_ [_ B]]]]] : (lt 0 w) by apply/ssrnat.ltP.
  exists bs => //. split.
    have D := Nat.div_mod (n - i0) w ltac:(move=> W; rewrite W in W0; by []).
    have U := Nat.mod_upper_bound (n - i0) w ltac:(move=> W; rewrite W in W0; by []).
    exists (Nat.div (n - i0) w); last by rewrite -length_size LN.
    by apply/andP; split; [apply/ssrnat.leP|apply/ssrnat.ltP]; rewrite -?plusE -?multE; nia.
  move=> j b /B [WF [B1 [B2 B3]]]. rewrite add0n. split.
    by split.
  move=> x y Hx Hy. apply: B3; rewrite ?B1 ?B2; exact/ssrnat.ltP.
Qed.

Definition bdescribed (r : nat) (recs : list (option R * (nat * nat))) : Prop :=
  exists K, [/\ (K * w <= n - i0 < K * w + w)%N, size recs = K.+1
    & forall k x, List.nth_error recs k = Some x -> x.2 = (st k.+1, st k.+1) /\
        exists2 e, x.1 = Some e & 0 <= e /\ (e = 0 <-> (\rank (diagonal_part st k.+1 c (st k.+1)) <= r)%N)].

Lemma forall2_iota A (P : A -> nat -> Prop) : forall K s xs, List.Forall2 P xs (iota s K) ->
  forall k x, List.nth_error xs k = Some x -> P x (s + k)%N.
Proof.
  elim=> [|K IH] s xs H; first by inversion H; subst; case.
  inversion H as [|x y xs' ys H1 H2 E1]; subst. case=> [|k] z /= E; first by case: E => <-; rewrite addn0.
  by rewrite addnS -addSn; apply: IH E.
Qed.

Lemma bdescribed_of r recs K : (K * w <= n - i0 < K * w + w)%N -> List.Forall2 (bsays st c r True) recs (iota 1 K.+1) -> bdescribed r recs.
Proof.
  move=> HK H. exists K. split=> //; first by rewrite (forall2_size H) size_iota.
  move=> k x E. have [S2 [e Ee [P1 P2 P3]]] := forall2_iota H E. rewrite add1n in S2 P2 P3.
  split=> //. exists e => //. split=> //. by split=> // RK; apply: P3.
Qed.

Lemma block_baseline_main :
  match dynamics (get_svd_triple rsvd) c rank rf rn with
  | Err e => w = 0%N /\ e = ZeroDivisionError \/ exists x r, rsvd x r = Err e
  | Ok recs => (0 < w)%N /\ bdescribed rank recs
  end.
Proof.
  have [Z S] := block_facts. rewrite /dynamics_mtx. case: (posnP w) => [W|W]; first by rewrite (Z W) /=; left.
  have [bs -> [[K HK SB] HB]] := S W. cbv beta iota delta [bind].
  have P0 : (0 < st 1)%N by rewrite /block_start Nat.mul_0_l Nat.add_0_r.
  have := @bb_loop R rsvd sqrt eps TR LL SQ EP st sz c st_next erefl rank bs 0 [::] None P0.
  move=> /(_ (fun H => False_ind _ (not_false_is_true H)) (fun _ => erefl) HB).
  case: (mtx_loop _ _ _ _ _ _ _ _ _ _ _ _ _ _) => [recs|e] H; last by right.
  split=> //. rewrite SB in H. exact: bdescribed_of HK H.
Qed.

Lemma block_incremental_main :
  match dynamics incr c rank rf rn with
  | Err e => w = 0%N /\ e = ZeroDivisionError \/ (exists x, svd x = Err e) \/ exists x r, rsvd x r = Err e
  | Ok recs => (0 < w)%N /\ bdescribed (minn rank i0) recs
  end.
Proof.
  have [Z S] := block_facts. rewrite /dynamics_mtx. case: (posnP w) => [W|W]; first by rewrite (Z W) /=; left.
  have [bs -> [[K HK SB] HB]] := S W. cbv beta iota delta [bind].
  have P0 : (0 < st 1)%N by rewrite /block_start Nat.mul_0_l Nat.add_0_r.
  have := @bi_loop R svd rsvd argsort sqrt eps SV NN AS TR LL NR SQ EP st sz c st_next erefl rank bs P0 HB.
  have -> : st 1 = i0 by rewrite /block_start Nat.mul_0_l Nat.add_0_r.
  case: (mtx_loop _ _ _ _ _ _ _ _ _ _ _ _ _ _) => [recs|e] H; last by right.
  split=> //. rewrite SB in H. exact: bdescribed_of HK H.
Qed.

(** The rank of the diagonal blocks together. *)
Lemma rank_window a m : (\rank (mx m m (build m m (fun x y => mget 0%R c (a + x)%N (a + y)%N))) <= \rank (mx n n c))%N \/ (n < a + m)%N.
Proof.
  case: (ltnP n (a + m)) => H; [by right|left].
  have L : forall x : 'I_m, (a + x < n)%N by move=> x; apply: leq_trans H; rewrite ltn_add2l.
  pose g (x : 'I_m) := Ordinal (L x).
  have -> : mx m m (build m m (fun x y => mget 0%R c (a + x)%N (a + y)%N)) = rowsub g (colsub g (mx n n c)).
    by apply/matrixP => x y; rewrite !mxE build_mget.
  rewrite rowsubE. apply: leq_trans (mxrankM_maxr _ _) _. 
  have -> : colsub g (mx n n c) = (rowsub g (mx n n c)^T)^T by apply/matrixP => x y; rewrite !mxE.
  rewrite mxrank_tr rowsubE -(mxrank_tr (mx n n c)). exact: mxrankM_maxr.
Qed.

Lemma rank_block m1 m2 (A : 'M[R]_m1) (B : 'M[R]_m2) : (\rank (block_mx A 0 0 B) <= \rank A + \rank B)%N.
Proof. by rewrite rank_diag_block_mx. Qed.

Lemma rank_blocks k : (0 < w)%N -> (st k <= n)%N -> (\rank (diagonal_part st k c (st k)) <= k * \rank (mx n n c))%N.
Proof.
  move=> W0. elim: k => [|k IH] Hk.
    by rewrite mul0n; apply: leq_trans (rank_leq_row _) _.
  have Hk' : (st k <= n)%N by apply: leq_trans Hk; rewrite st_next leq_addr.
  pose b := build (sz k) (sz k) (fun x y => mget 0 c (st k + x) (st k + y)).
  have Hb : shape (sz k) (sz k) b by exact: shape_build.
  have Cb : forall x y, (x < sz k)%N -> (y < sz k)%N -> mget 0 b x y = mget 0 c (st k + x) (st k + y) by move=> x y Hx Hy; rewrite build_mget.
  rewrite [st k.+1]st_next -(diagonal_next st_next Hb Cb). apply: leq_trans (rank_block _ _) _.
  rewrite mulSn addnC. apply: leq_add; last exact: IH.
  case: (rank_window (st k) (sz k)) => //. by rewrite -st_next ltnNge Hk.
Qed.
End Main.
