(** The experiment that follows a list of matrices with projector-splitting steps. *)
From Verif Require Import Prelude Tensor_model Matrix_model Attention_model LinAlg_model Steps_model.
Set Warnings "-notation-overridden".
From mathcomp Require Import all_ssreflect all_algebra.
From Verif Require Import LinAlg_spec LinAlg_bridge LinAlg_psi Upd_spec Exact_spec Exact_main Steps_spec Steps_err.
Set Implicit Arguments.
Unset Strict Implicit.
Unset Printing Implicit Defensive.
Import Order.TTheory GRing.Theory Num.Theory.
Local Open Scope ring_scope.

Section Norm.
Variable R : realFieldType.

Lemma normsq_tr m n (M : 'M[R]_(m, n)) : normsq M = \tr (M^T *m M).
Proof.
  rewrite /normsq exchange_big /=. apply: eq_bigr => j _. rewrite mxE. apply: eq_bigr => i _. by rewrite mxE expr2.
Qed.

Lemma normsq_trmx m n (M : 'M[R]_(m, n)) : normsq M^T = normsq M.
Proof. rewrite /normsq exchange_big /=. by apply: eq_bigr => i _; apply: eq_bigr => j _; rewrite mxE. Qed.

Lemma normsq_proj m n (P : 'M[R]_m) (M : 'M[R]_(m, n)) : P^T = P -> P *m P = P -> normsq (M - P *m M) <= normsq M.
Proof.
  move=> PT PP. have -> : normsq M = normsq (M - P *m M) + normsq (P *m M).
    rewrite !normsq_tr -mxtraceD. congr (mxtrace _).
    have e1 : (P *m M)^T *m M = M^T *m (P *m M) by rewrite trmx_mul PT mulmxA.
    have e2 : (P *m M)^T *m (P *m M) = M^T *m (P *m M) by rewrite trmx_mul PT -mulmxA (mulmxA P) PP.
    rewrite [(M - _)^T]linearB /= mulmxBl !mulmxBr e1 e2 subrr subr0. by rewrite subrK.
  by rewrite ler_addl normsq_ge0.
Qed.

Lemma zsum (V : zmodType) (a b y p q r : V) : a - (y + p + q - r) - (b - y) = (a - b - q) - (p - r).
Proof.
  rewrite opprB addrAC -!addrA opprD. congr (_ + _).
  rewrite opprK -!addrA. congr (_ + _). by rewrite (opprD y) (addrCA r) addNKr opprD opprB addrA addrC.
Qed.
End Norm.

Section Psi.
Variable R : realFieldType.
Variables (qr : mat R -> res (mat R * mat R)) (rsvd : mat R -> nat -> res (mat R * list R * mat R)) (sqrt : R -> R) (eps : R).
Hypothesis QR : qr_ok qr.
Hypothesis TR : truncated_ok rsvd.
Hypothesis LL : lossless rsvd.
Hypothesis SQ : sqrt_ok sqrt.
Hypothesis EP : 0 < eps.
Notation err := (sqrt_err_relative_mtx (0 : R) +%R *%R (fun x y => x - y) (fun x y => x / y) (fun k => k%:R) sqrt eps).
Notation psi := (psi_step (0 : R) +%R *%R (fun x y => x - y) qr).
Notation loop := (psi_loop (0 : R) +%R *%R (fun x y => x - y) (fun x y => x / y) (fun k => k%:R) qr sqrt eps).
Notation dynamics := (get_psi_dynamics (0 : R) +%R *%R (fun x y => x - y) (fun x y => x / y) (fun k => k%:R) qr rsvd sqrt eps).
Notation svd_dynamics := (get_svd_dynamics (0 : R) +%R *%R (fun x y => x - y) (fun x y => x / y) (fun k => k%:R) rsvd sqrt eps).

Lemma err_rel m n a b : shape m n a -> shape m n b -> (0 < m * n)%N ->
  err a b = Ok (Some (relative_error sqrt eps (mx m n a) (mx m n b))).
Proof. move=> Ha Hb H. by rewrite (err_value _ _ Ha Hb) -(negbK (_ == _)) -lt0n H. Qed.

Lemma rel_zero m n (Y M : 'M[R]_(m, n)) : (0 < m * n)%N ->
  0 <= relative_error sqrt eps Y M /\ (relative_error sqrt eps Y M = 0 <-> Y = M).
Proof.
  move=> H. have D : 0 < normsq M / (m * n)%:R + eps.
    by apply: ltr_spaddr => //; apply: divr_ge0; rewrite ?ler0n ?normsq_ge0.
  have M0 : (0 : R) < (m * n)%:R by rewrite ltr0n.
  have X : 0 <= (normsq (Y - M) / (m * n)%:R) / (normsq M / (m * n)%:R + eps).
    by apply: divr_ge0; [apply: divr_ge0; [exact: normsq_ge0|exact: ltW]|exact: ltW].
  have [S1 S2] := SQ X. split=> //. rewrite /relative_error S2. split=> [/eqP|E].
    rewrite !mulf_eq0 !invr_eq0 (gt_eqF D) (gt_eqF M0) !orbF => /eqP /normsq_eq0 /eqP.
    by rewrite subr_eq0 => /eqP.
  rewrite E subrr. have -> : normsq (0 : 'M[R]_(m, n)) = 0 by apply/normsq_eq0. by rewrite !mul0r.
Qed.

(** The step: formula for the new error, and when it is exact. *)
Lemma step_follows m n r rank u s vt prev a : (r <= m)%N -> (r <= n)%N -> (r <= rank)%N -> (0 < m * n)%N ->
  shape m r u -> shape r r s -> shape r n vt -> mx r n vt *m (mx r n vt)^T = 1%:M -> shape m n prev -> shape m n a ->
  let Y := mx m r u *m mx r r s *m mx r n vt in
  exists2 da, msub 0 (fun x y => x - y) a prev = Ok da &
  match psi u (SMat s) vt da with
  | Err e => exists x, qr x = Err e
  | Ok (u1, s1, v1t) => [/\ shape m r u1, shape r r s1, shape r n v1t, mx r n v1t *m (mx r n v1t)^T = 1%:M
    & exists2 e, (do sv <- Matrix_model.dot 0 +%R *%R s1 v1t; do b <- Matrix_model.dot 0 +%R *%R u1 sv; err b a) = Ok e
      & follows sqrt eps rank (mx m n prev) Y (mx m n a) (mx m r u1 *m mx r r s1 *m mx r n v1t) e]
  end.
Proof.
  move=> rm rn rr mn Hu Hs Hv OV Hp Ha Y. have [da -> [Hd Ed]] := msub_ok Ha Hp. exists da => //.
  have := psi_step_main QR (s := SMat s) Hu Hs Hv Hd.
  case E : (psi u (SMat s) vt da) => [[[u1 s1] v1t]|e] //=.
  rewrite (minn_idPr rm) (minn_idPr rn) -/Y. move=> [H1 H2 H3 [O1 O2] [[X HX] HB]]. split=> //.
  have [sv -> [Hsv Esv]] := dot_ok H2 H3. rewrite /=. have [b -> [Hb Eb]] := dot_ok H1 Hsv. rewrite /=.
  rewrite (err_rel Hb Ha mn) Eb Esv mulmxA. eexists; first by reflexivity. split=> //.
  - apply: leq_trans rr. apply: leq_trans (mxrankM_maxr _ _) _. exact: rank_leq_row.
  - rewrite HB Ed. set D := mx m n a - mx m n prev. set PV := (mx r n vt)^T *m _. set PU := mx m r u1 *m (mx m r u1)^T.
    have -> : mx m n a - (Y + D *m PV + PU *m D - PU *m D *m PV) - (mx m n prev - Y) = (D - PU *m D) - (D - PU *m D) *m PV.
      rewrite zsum -mulmxBl. by [].
    have OPU : PU *m PU = PU by rewrite /PU mulmxA -(mulmxA _ _^T) O1 mulmx1.
    have OPV : PV *m PV = PV by rewrite /PV mulmxA -(mulmxA _ _ _^T) OV mulmx1.
    have TPU : PU^T = PU by rewrite /PU trmx_mul trmxK.
    have TPV : PV^T = PV by rewrite /PV trmx_mul trmxK.
    apply: le_trans (normsq_proj D TPU OPU). set N := D - _.
    rewrite -normsq_trmx -(normsq_trmx N) linearB /= trmx_mul TPV. exact: normsq_proj.
  - move=> EY RK. have ED : Y + mx m n da = mx m n a by rewrite Ed EY addrC subrK.
    have [_ _] := psi_step_exact_main QR (s := SMat s) Hu Hs Hv Hd E.
    rewrite (minn_idPr rm) (minn_idPr rn) -/Y ED trmxK. apply=> //.
    set B := mx m n a in RK *. set W := mx r n vt.
    have EM : (mx m n prev)^T = W^T *m (mx m r u *m mx r r s)^T by rewrite -EY -trmx_mul.
    have RW : \rank (W *m B^T) = \rank B^T.
      rewrite mxrank_tr. apply/eqP. rewrite eqn_leq -{1}(mxrank_tr B) mxrankM_maxr /=.
      rewrite -{1}RK EM mulmxA. apply: leq_trans (mxrankM_maxl _ _) _. by rewrite -(mxrank_tr (B *m _)) trmx_mul trmxK.
    have SUB : (B^T <= W *m B^T)%MS.
      have [_ H] := mxrank_leqif_sup (submxMl W B^T). by rewrite -H RW.
    case/submxP: SUB => Z HZ. exists Z^T. by rewrite -[LHS]trmxK HZ !trmx_mul !trmxK.
Qed.

Lemma loop_followed m n r rank : (r <= m)%N -> (r <= n)%N -> (r <= rank)%N -> (0 < m * n)%N ->
  forall l u s vt prev, List.Forall (shape m n) l ->
  shape m r u -> shape r r s -> shape r n vt -> mx r n vt *m (mx r n vt)^T = 1%:M -> shape m n prev ->
  match loop u s vt prev l with
  | Err e => exists x, qr x = Err e
  | Ok es => followed sqrt eps rank (mx m n prev) (mx m r u *m mx r r s *m mx r n vt) l es
  end.
Proof.
  move=> rm rn rr mn. elim=> [|a l IH] u s vt prev Hl Hu Hs Hv OV Hp //=.
  have Ha := List.Forall_inv Hl. have Hl' := List.Forall_inv_tail Hl.
  have [da -> /=] := step_follows rm rn rr mn Hu Hs Hv OV Hp Ha.
  case: (psi u (SMat s) vt da) => [[[u1 s1] v1t]|e] //= [H1 H2 H3 O3 [e]].
  have := IH u1 s1 v1t a Hl' H1 H2 H3 O3 Ha.
  case: (Matrix_model.dot _ _ _ _ _) => [sv|e'] //=. case: (Matrix_model.dot _ _ _ _ _) => [b|e'] //=.
  case: (err b a) => [x|e'] //= + [->].
  case: (loop u1 s1 v1t a l) => [es|e'] //= HX HF. by exists (mx m r u1 *m mx r r s1 *m mx r n v1t).
Qed.

Lemma psi_dynamics_main m n a l rank : (0 < m * n)%N -> List.Forall (shape m n) (a :: l) ->
  match dynamics (a :: l) rank with
  | Err e => (exists x, qr x = Err e) \/ (exists x r, rsvd x r = Err e)
  | Ok [::] => False
  | Ok (e :: es) => exists Y : 'M[R]_(m, n), [/\ e = Some (relative_error sqrt eps Y (mx m n a)),
      (\rank Y <= rank)%N, (\rank (mx m n a) <= rank)%N -> Y = mx m n a & followed sqrt eps rank (mx m n a) Y l es]
  end.
Proof.
  move=> mn Hl. have Ha := List.Forall_inv Hl. have Hl' := List.Forall_inv_tail Hl.
  rewrite /get_psi_dynamics. case E : (rsvd a rank) => [[[u s] vt]|e] /=; last by right; exists a, rank.
  have [/= F1 F2 F3 F4 F5] := TR E. have LX := LL E. rewrite /= F2 in LX. case: (Ha) => R1 R2. rewrite R1 R2 in LX F1 F2 F3 F4 F5.
  set r := minn rank (minn m n) in LX F1 F2 F3 F4 F5.
  have [b -> [Hb Eb]] := svd2mtx_ok F1 F2 F3. rewrite /= (err_rel Hb Ha mn) /=.
  have rm : (r <= m)%N by rewrite (leq_trans (geq_minr _ _)) // geq_minl.
  have rn : (r <= n)%N by rewrite (leq_trans (geq_minr _ _)) // geq_minr.
  have rr : (r <= rank)%N by exact: geq_minl.
  have [Hd Ed] := diag_ok F2.
  have := loop_followed rm rn rr mn Hl' F1 Hd F3 F5 Ha. rewrite Ed.
  case: (loop _ _ _ _ _) => [es|e] H; last by left.
  rewrite Eb. exists (product m r n (u, s, vt)). split=> //.
  - apply: leq_trans rr. exact: rank_product.
  - move=> RK. apply: LX. by apply/low_rankE.
Qed.

Lemma followed_exact m n rank : (0 < m * n)%N -> forall l (M : 'M[R]_(m, n)) es, followed sqrt eps rank M M l es -> overlap M l ->
  es = nseq (size l) (Some 0).
Proof.
  move=> mn. elim=> [|b l IH] M [|e es] //= [Y [[-> _ _ H3] HF]] [O1 O2].
  have EY := H3 erefl O1. rewrite EY in HF *. have -> : relative_error sqrt eps (mx m n b) (mx m n b) = 0 by have [_ H0] := rel_zero (mx m n b) (mx m n b) mn; apply/H0.
  by rewrite (IH _ _ HF O2).
Qed.

Lemma followed_ranks m n rank : (0 < m * n)%N -> forall l (M Y : 'M[R]_(m, n)) es, followed sqrt eps rank M Y l es ->
  size es = size l /\ forall k, List.nth_error es k = Some (Some 0) ->
    exists2 b, List.nth_error l k = Some b & (\rank (mx m n b) <= rank)%N.
Proof.
  move=> mn. elim=> [|b l IH] M Y [|e es] //=; first by move=> _; split=> //; case.
  move=> [Z [[-> RZ _ _] HF]]. have [S1 S2] := IH _ _ _ HF. split; first by rewrite S1.
  case=> [|k] /=; last exact: S2. case=> E. exists b => //.
  have <- : Z = mx m n b by have [_ H0] := rel_zero Z (mx m n b) mn; apply/H0. by [].
Qed.

Lemma mapM_ok A B (f : A -> res B) (P : A -> B -> Prop) (Q : exn -> Prop) : forall l,
  List.Forall (fun x => match f x with Ok y => P x y | Err e => Q e end) l ->
  match mapM f l with Ok ys => List.Forall2 P l ys | Err e => Q e end.
Proof.
  elim=> [|x l IH] H /=; first by constructor.
  have := List.Forall_inv H. case: (f x) => [y|e] //= Hy. have := IH (List.Forall_inv_tail H).
  case: (mapM f l) => [ys|e] //= Hys. by constructor.
Qed.

Lemma svd_dynamics_main m n l rank : (0 < m * n)%N -> List.Forall (shape m n) l -> l <> [::] ->
  match svd_dynamics l rank with
  | Err e => exists x r, rsvd x r = Err e
  | Ok es => List.Forall2 (fun a e => exists2 x, e = Some x & 0 <= x /\ (x = 0 <-> (\rank (mx m n a) <= rank)%N)) l es
  end.
Proof.
  move=> mn Hl Hn. rewrite /get_svd_dynamics. case: l Hn Hl => // a0 l0 _. move: (a0 :: l0) => {a0 l0} l Hl.
  apply: (mapM_ok (Q := fun e => exists x r, rsvd x r = Err e)). apply: List.Forall_impl Hl => a Ha.
  case E : (rsvd a rank) => [[[u s] vt]|e] /=; last by exists a, rank.
  have [/= F1 F2 F3 F4 F5] := TR E. have LX := LL E. rewrite /= F2 in LX. case: (Ha) => R1 R2. rewrite R1 R2 in LX F1 F2 F3 F4 F5.
  set r := minn rank (minn m n) in LX F1 F2 F3 F4 F5.
  have [b -> [Hb Eb]] := svd2mtx_ok F1 F2 F3. rewrite /= (err_rel Hb Ha mn) Eb.
  eexists; first by reflexivity. have [Z0 ->] := rel_zero (product m r n (u, s, vt)) (mx m n a) mn. split=> //. split=> [<-|RK].
    apply: leq_trans (rank_product _ _ _ _) _. exact: geq_minl.
  apply: LX. by apply/low_rankE.
Qed.
Lemma psi_exact_main rank : dynamics [::] rank = Err UnboundLocalError /\
  forall m n a l es, (0 < m * n)%N -> List.Forall (shape m n) (a :: l) -> dynamics (a :: l) rank = Ok es ->
  size es = (size l).+1 /\
  (forall k, List.nth_error es k = Some (Some 0) ->
     exists2 b, List.nth_error (a :: l) k = Some b & (\rank (mx m n b) <= rank)%N) /\
  ((\rank (mx m n a) <= rank)%N -> overlap (mx m n a) l -> es = nseq (size l).+1 (Some 0)).
Proof.
  split=> // m n a l es mn Hl E. have := psi_dynamics_main rank mn Hl. rewrite E. case: es {E} => // e es [Y [-> RY EY HF]].
  have [S1 S2] := followed_ranks mn HF. have [_ H0] := rel_zero Y (mx m n a) mn. split; first by rewrite /= S1. split.
    case=> [|k] /=; last exact: S2. case=> E. exists a => //. by have <- : Y = mx m n a by apply/H0.
  move=> RA OV. have {}EY := EY RA. rewrite EY in HF H0 *. by rewrite (followed_exact mn HF OV) /=; congr cons; congr Some; apply/H0.
Qed.
End Psi.
