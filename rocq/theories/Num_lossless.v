(** An update of the numerical PSI model that loses nothing adds exactly the new
    relevances to the scores. *)
From Coq Require Import ZArith Lia.
From Verif Require Import Prelude DataPrep_model DataPrep_spec Psi_model Psi_spec Tensor_model Matrix_model Attention_model LinAlg_model Num_model Num_sim.
Set Warnings "-notation-overridden".
From mathcomp Require Import all_ssreflect all_algebra.
From Verif Require Import LinAlg_spec LinAlg_bridge LinAlg_psi LinAlg_vectors LinAlg_block LinAlg_emb Upd_spec Exact_spec Exact_main Exact_final Num_spec Num_upd Num_book Num_cells Num_steps.
Set Implicit Arguments.
Unset Strict Implicit.
Unset Printing Implicit Defensive.
Import GRing.Theory Num.Theory.
Local Open Scope ring_scope.

Local Arguments psi_add_zero : simpl never.
Local Arguments psi_add_random : simpl never.

Section Lossless.
Variable R : realFieldType.
Variable of_rel : Z -> R.
Variables (qr : mat R -> res (mat R * mat R)) (svd : mat R -> res (mat R * list R * mat R)).
Variables (rsvd : mat R -> nat -> res (mat R * list R * mat R)) (exceeds_eps : R -> bool).
Variables (argsort : list R -> list nat) (normal : nat -> nat -> mat R).
Hypotheses (QR : qr_ok qr) (SV : svd_ok svd) (NN : nonneg_svd svd) (TR : truncated_ok rsvd) (LL : lossless rsvd)
  (AS : argsort_ok (fun x y => x <= y) argsort) (NO : randn_ok normal).
Variable cfg : psi_cfg.
Notation num_updater := (num_updater (0 : R) 1 +%R *%R (fun x y => x - y) qr svd rsvd exceeds_eps argsort normal cfg).
Notation num_update := (num_update (0 : R) 1 +%R *%R (fun x y => x - y) of_rel qr svd rsvd exceeds_eps argsort normal cfg).
Notation runs r := (Num_sim.runs (0 : R) 1 +%R *%R (fun x y => x - y) of_rel qr svd rsvd exceeds_eps argsort normal cfg (inv r)).
Notation landed := (landed of_rel).
Notation total := (total of_rel).

Definition mu (f : @triple R) : nat := mr f.1.1.
Definition nu (f : @triple R) : nat := mc f.2.
Definition fok r f := factors_ok r (mu f) (nu f) f.
Definition ort r f := ortho r (mu f) (nu f) f.
Definition sc r f : nat -> nat -> R := at_mx (score_mx r (mu f) (nu f) f).

Lemma inv_sizes r a b f : inv r a b f -> [/\ a = Z.of_nat (mu f), b = Z.of_nat (nu f) & fok r f].
Proof. by move=> [m [n [-> [-> F]]]]; have [[E1 _] _ [_ E2] _] := F; rewrite /fok /mu /nu E1 E2. Qed.

Lemma fok_at r m n f : factors_ok r m n f -> mu f = m /\ nu f = n.
Proof. by move=> [[E1 _] _ [_ E2] _]. Qed.

Lemma sc_out r f i j : (mu f <= i)%N || (nu f <= j)%N -> sc r f i j = 0.
Proof. exact: at_out. Qed.

(** The state after a step: sizes, orthonormality and scores. *)
Definition reached r f f1 (h : nat -> nat -> R) : Prop :=
  [/\ ort r f1, (mu f <= mu f1)%N, (nu f <= nu f1)%N & forall i j, sc r f1 i j = h i j].

Section Step.
Variables (r : nat) (s : step_log) (f f1 : @triple R).
Hypotheses (J : inv r (sl_users s) (sl_items s) f) (D : dims (sl_mode s) (sl_da s) (sl_users s) (sl_items s))
  (E : num_updater (sl_mode s) (da_array 0 +%R of_rel (sl_da s)) f = Ok f1) (O : ort r f).
Let h i j := sc r f i j + landed s i j.

Let d := Z.to_nat (da_rows (sl_da s)).
Let c := Z.to_nat (da_cols (sl_da s)).
Let N := mx d c (da_array 0 +%R of_rel (sl_da s)).

Lemma step_at i j : landed s i j = match sl_mode s with
  | MNew => if (i < mu f)%N || (j < nu f)%N then 0 else at_mx N (i - mu f) (j - nu f)
  | MNewUsers => if (i < mu f)%N then 0 else at_mx N j (i - mu f)
  | MNewItems => if (j < nu f)%N then 0 else at_mx N i (j - nu f)
  | MOld => at_mx N i j
  end.
Proof.
  have [Eu Ei _] := inv_sizes J. have D' := D. rewrite Eu Ei in D'.
  rewrite (landed_mode of_rel Eu Ei D' i j). case: D' => _ [_ [_ RNG]].
  by case: (sl_mode s); rewrite !(at_da of_rel RNG).
Qed.

Lemma fmx_of m n (B : 'M[R]_(m, n)) (g : nat -> nat -> R) : (forall i j, at_mx B i j = g i j) -> fmx m n g = B.
Proof. by move=> H; apply/matrixP => i j; rewrite mxE -H at_ord. Qed.

Lemma step_new : sl_mode s = MNew -> cf_integrator cfg = false ->
  (match f.1.2 with SVec v => all (fun y => 0 <= y) v | SMat _ => true end) ->
  (\rank (fmx (mu f1) (nu f1) h) <= r)%N -> reached r f f1 h.
Proof.
  move=> Em Ei Hn RK. have [_ _] := inv_sizes J. have [Ou Ov] := O. have SA := step_at.
  move: E SA Ou Ov Hn RK. rewrite Em /h /reached /ort /sc /fok. case: (f) => [[u sm] vt] /=. rewrite Ei.
  set m := mu _. set n := nu _. set A := score_mx r m n (u, sm, vt). move=> E' SA Ou Ov Hn RK [/= Hu Hs Hv _].
  have Hd : shape d c (da_array 0 +%R of_rel (sl_da s)) := da_shape _ _.
  move: E'. case E' : (update_svd_new_submatrix _ _ _ _ _ _ _ _ _ _) => [[[u2 s2] v2t]|e] //= [Ef].
  have := @block_shape R qr svd rsvd argsort _ SV TR AS m r n d c u sm vt _ Hu Hs Hv Hd. rewrite E' => -[H1 H2 H3].
  have F1 : mu f1 = (m + d)%N by rewrite -Ef /mu (proj1 H1).
  have F2 : nu f1 = (n + c)%N by rewrite -Ef /nu (proj2 H3).
  have HB i j : at_mx (block_mx A 0 0 N) i j = at_mx A i j + landed s i j by rewrite at_block SA.
  rewrite F1 F2 (fmx_of HB) in RK *.
  have [P1 P2 P3] := block_exact qr SV NN TR LL AS Hu Hs Hv Hd Hn Ou Ov E' RK.
  rewrite !leq_addr -Ef. split=> // i j. by rewrite -HB /score_mx /= P1.
Qed.

Lemma step_new_zero : sl_mode s = MNew -> cf_integrator cfg = true -> reached r f f1 (sc r f).
Proof.
  move=> Em Ei. have [_ _] := inv_sizes J. have [Ou Ov] := O.
  move: E Ou Ov. rewrite Em /reached /ort /sc /fok. case: (f) => [[u sm] vt] /=. rewrite Ei.
  set m := mu _. set n := nu _. set A := score_mx r m n (u, sm, vt). move=> E' Ou Ov [/= Hu Hs Hv _].
  have [u2 [E2 H2 P2]] := zero_users (mr (da_array 0 +%R of_rel (sl_da s))) Hu Hs Hv. rewrite E2 /= in E'.
  have [v2 [E3 H3 P3]] := zero_items (mc (da_array 0 +%R of_rel (sl_da s))) H2 Hs Hv. rewrite E3 /= in E'. case: E' => Ef.
  have F1 : mu f1 = (m + d)%N by rewrite -Ef /mu (proj1 H2).
  have F2 : nu f1 = (n + c)%N by rewrite -Ef /nu (proj2 H3).
  rewrite F1 F2 !leq_addr -Ef. split=> //.
    by split; rewrite /= ?P2 ?P3 ?tr_col_mx ?tr_row_mx ?mul_row_col trmx0 ?mul0mx ?mulmx0 addr0.
  move=> i j. rewrite /score_mx /= P2 P3 mul_col_mx mul0mx mul_mx_row mulmx0. 
  have -> : row_mx (col_mx (mx m r u *m smx r r sm) 0 *m mx r n vt) 0 = block_mx A 0 0 (0 : 'M_(d, c)).
    by rewrite mul_col_mx mul0mx block_mxEh col_mx0.
  have Z a b i' j' : at_mx (0 : 'M[R]_(a, b)) i' j' = 0 by rewrite /at_mx; case: insub => // x; case: insub => // y; rewrite mxE.
  by rewrite at_block Z if_same addr0.
Qed.

Lemma step_users_gen : sl_mode s = MNewUsers -> cf_init cfg = INone ->
  let h' i j := at_mx (turned_mx r (mu f) (nu f) f) i j + landed s i j in
  \rank (fmx (mu f1) (nu f1) h') = r -> reached r f f1 h'.
Proof.
  move=> Em Ei h' RK. have [_ EI] := inv_sizes J. have [Ou Ov] := O. have SA := step_at. have DD := D.
  move: DD EI E SA Ou Ov RK. rewrite Em /h' /reached /ort /sc /fok. case: (f) => [[u sm] vt]. rewrite /= Ei.
  set m := mu _. set n := nu _. set A := turned_mx _ _ _ _. move=> [DR _] EI E' SA Ou Ov RK [/= Hu Hs Hv /andP [R0]]; rewrite leq_min => /andP [Rm Rn].
  have Hd : shape d c (da_array 0 +%R of_rel (sl_da s)) := da_shape _ _.
  have Ed : d = n by rewrite /d DR EI Nat2Z.id.
  have HN i j : at_mx N i j = at_mx (mx n c (da_array 0 +%R of_rel (sl_da s))) i j by rewrite /N Ed.
  rewrite Ed in Hd. have [Hut Eut] := transpose_ok Hu. have [Hvt Evt] := transpose_ok Hv.
  move: E'. case E' : (update_svd_new_vectors _ _ _ _ _ _ _ _ _ _ _ _) => [[[u2 s2] v2t]|e] //= [Ef].
  have Hr : (0 < r <= n)%N by rewrite R0.
  have := @vectors_shape R qr svd rsvd exceeds_eps QR TR n r m c _ sm _ _ Hvt Hs Hut Hd Hr. rewrite E' => -[Hc [H1 H2 H3]].
  have [H1t P1t] := transpose_ok H1. have [H3t P3t] := transpose_ok H3.
  have F1 : mu f1 = (m + c)%N by rewrite -Ef /mu (proj1 H3t).
  have F2 : nu f1 = n by rewrite -Ef /nu (proj2 H1t).
  have EA : mx n r (transpose 0 vt) *m smx r r sm *m mx r m (transpose 0 u) = A^T.
    by rewrite /A /turned_mx [_.1.1]/= [_.2]/= [X in smx r r X]/= !trmx_mul trmxK Evt Eut mulmxA.
  have HB i j : at_mx (row_mx A^T (mx n c (da_array 0 +%R of_rel (sl_da s))))^T i j = at_mx A i j + landed s i j.
    rewrite at_tr at_row at_tr SA HN. case: ltnP => Hi; first by rewrite addr0. by rewrite (at_out A) ?Hi ?add0r.
  rewrite F1 F2 (fmx_of HB) mxrank_tr -EA in RK *.
  have O1 : (mx n r (transpose 0 vt))^T *m mx n r (transpose 0 vt) = 1%:M by rewrite Evt trmxK.
  have O2 : mx r m (transpose 0 u) *m (mx r m (transpose 0 u))^T = 1%:M by rewrite Eut trmxK.
  have [P1 P2 P3] := vectors_exact svd QR TR LL Hvt Hs Hut Hd Hr O1 O2 E' RK.
  rewrite leq_addr leqnn -Ef. split=> //.
    by split; rewrite /= ?P3t ?P1t ?trmxK.
  move=> i j. rewrite -HB -EA -P1 /score_mx /= P3t P1t. congr at_mx.
  rewrite !trmx_mul -mulmxA. congr (_ *m (_ *m _)). apply/matrixP => a b. rewrite !mxE eq_sym. by case: eqP => // ->.
Qed.

Lemma step_users : sl_mode s = MNewUsers -> cf_init cfg = INone ->
  (smx r r f.1.2)^T = smx r r f.1.2 -> \rank (fmx (mu f1) (nu f1) h) = r -> reached r f f1 h.
Proof.
  move=> Em Ei SY RK. have := step_users_gen Em Ei. rewrite /turned_mx SY. exact.
Qed.

Lemma step_items : sl_mode s = MNewItems -> cf_init cfg = INone ->
  \rank (fmx (mu f1) (nu f1) h) = r -> reached r f f1 h.
Proof.
  move=> Em Ei RK. have [EI _] := inv_sizes J. have [Ou Ov] := O. have SA := step_at. have DD := D.
  move: DD EI E SA Ou Ov RK. rewrite Em /h /reached /ort /sc /fok. case: (f) => [[u sm] vt] /=. rewrite Ei.
  set m := mu _. set n := nu _. set A := score_mx r m n (u, sm, vt). move=> [DR _] EI E' SA Ou Ov RK [/= Hu Hs Hv /andP [R0]]; rewrite leq_min => /andP [Rm Rn].
  have Hd : shape d c (da_array 0 +%R of_rel (sl_da s)) := da_shape _ _.
  have Ed : d = m by rewrite /d DR EI Nat2Z.id.
  have HN i j : at_mx N i j = at_mx (mx m c (da_array 0 +%R of_rel (sl_da s))) i j by rewrite /N Ed.
  rewrite Ed in Hd.
  move: E'. case E' : (update_svd_new_vectors _ _ _ _ _ _ _ _ _ _ _ _) => [[[u2 s2] v2t]|e] //= [Ef].
  have Hr : (0 < r <= m)%N by rewrite R0.
  have := @vectors_shape R qr svd rsvd exceeds_eps QR TR m r n c _ sm _ _ Hu Hs Hv Hd Hr. rewrite E' => -[Hc [H1 H2 H3]].
  have F1 : mu f1 = m by rewrite -Ef /mu (proj1 H1).
  have F2 : nu f1 = (n + c)%N by rewrite -Ef /nu (proj2 H3).
  have HB i j : at_mx (row_mx A (mx m c (da_array 0 +%R of_rel (sl_da s)))) i j = at_mx A i j + landed s i j.
    rewrite at_row SA HN. case: ltnP => Hi; first by rewrite addr0. by rewrite (at_out A) ?Hi ?orbT ?add0r.
  rewrite F1 F2 (fmx_of HB) in RK *.
  have [P1 P2 P3] := vectors_exact svd QR TR LL Hu Hs Hv Hd Hr Ou Ov E' RK.
  rewrite leq_addr leqnn -Ef. split=> // i j. by rewrite -HB /score_mx /= P1.
Qed.

Lemma at_zero a b i j : at_mx (0 : 'M[R]_(a, b)) i j = 0.
Proof. by rewrite /at_mx; case: insub => // x; case: insub => // y; rewrite mxE. Qed.

Lemma step_users_zero : sl_mode s = MNewUsers -> cf_init cfg = IZero -> reached r f f1 (sc r f).
Proof.
  move=> Em Ei. have [_ _] := inv_sizes J. have [Ou Ov] := O.
  move: E Ou Ov. rewrite Em /reached /ort /sc /fok. case: (f) => [[u sm] vt] /=. rewrite Ei.
  set m := mu _. set n := nu _. move=> E' Ou Ov [/= Hu Hs Hv _].
  have [u2 [E2 H2 P2]] := zero_users (mc (da_array 0 +%R of_rel (sl_da s))) Hu Hs Hv. rewrite E2 /= in E'. case: E' => Ef.
  have F1 : mu f1 = (m + c)%N by rewrite -Ef /mu (proj1 H2).
  have F2 : nu f1 = n by rewrite -Ef /nu (proj2 Hv).
  rewrite F1 F2 leqnn leq_addr -Ef. split=> //.
    by split=> //=; rewrite P2 tr_col_mx mul_row_col trmx0 mul0mx addr0.
  move=> i j. rewrite /score_mx /= P2 !mul_col_mx !mul0mx at_col at_zero. case: ltnP => // Hi. by rewrite at_out ?Hi.
Qed.

Lemma step_items_zero : sl_mode s = MNewItems -> cf_init cfg = IZero -> reached r f f1 (sc r f).
Proof.
  move=> Em Ei. have [_ _] := inv_sizes J. have [Ou Ov] := O.
  move: E Ou Ov. rewrite Em /reached /ort /sc /fok. case: (f) => [[u sm] vt] /=. rewrite Ei.
  set m := mu _. set n := nu _. move=> E' Ou Ov [/= Hu Hs Hv _].
  have [v2 [E2 H2 P2]] := zero_items (mc (da_array 0 +%R of_rel (sl_da s))) Hu Hs Hv. rewrite E2 /= in E'. case: E' => Ef.
  have F1 : mu f1 = m by rewrite -Ef /mu (proj1 Hu).
  have F2 : nu f1 = (n + c)%N by rewrite -Ef /nu (proj2 H2).
  rewrite F1 F2 leqnn leq_addr -Ef. split=> //.
    by split=> //=; rewrite P2 tr_row_mx mul_row_col trmx0 mulmx0 addr0.
  move=> i j. rewrite /score_mx /= P2 mul_mx_row mulmx0 at_row at_zero. case: ltnP => // Hi. by rewrite at_out ?Hi ?orbT.
Qed.

Lemma step_old : sl_mode s = MOld ->
  [/\ ort r f1, mu f1 = mu f & nu f1 = nu f] /\ (let T := fmx (mu f1) (nu f1) h in
   \rank (T *m (fmx (mu f1) (nu f1) (sc r f))^T) = \rank T -> reached r f f1 h).
Proof.
  move=> Em. have [EU EI] := inv_sizes J. have [Ou Ov] := O. have SA := step_at. have DD := D.
  move: DD EU EI E SA Ou Ov. rewrite Em /h /reached /ort /sc /fok. case: (f) => [[u sm] vt] /=.
  set m := mu _. set n := nu _. set A := score_mx r m n (u, sm, vt). move=> [[DR DC] _] EU EI E' SA Ou Ov [/= Hu Hs Hv Hr].
  have Hd : shape d c (da_array 0 +%R of_rel (sl_da s)) := da_shape _ _.
  have Ed : d = m by rewrite /d DR EU Nat2Z.id.
  have Ec : c = n by rewrite /c DC EI Nat2Z.id.
  have HN i j : at_mx N i j = at_mx (mx m n (da_array 0 +%R of_rel (sl_da s))) i j by rewrite /N Ed Ec.
  rewrite Ed Ec in Hd.
  move: E'. case E' : (psi_step _ _ _ _ _ _ _ _ _) => [[[u2 s2] v2t]|e] //= [Ef].
  have := psi_step_main QR Hu Hs Hv Hd. have := psi_exact QR Hu Hs Hv Hd Hr Ov E'. rewrite E' /=.
  move: (Hr) => /andP [R0]; rewrite leq_min => /andP [Rm Rn]. rewrite (minn_idPr Rm) (minn_idPr Rn) => -[[O1 O2] P] [H1 H2 H3 _ _].
  have F1 : mu f1 = m by rewrite -Ef /mu (proj1 H1).
  have F2 : nu f1 = n by rewrite -Ef /nu (proj2 H3).
  have HB i j : at_mx (A + mx m n (da_array 0 +%R of_rel (sl_da s))) i j = at_mx A i j + landed s i j.
    rewrite SA HN. case: (ltnP i m) => Hi; last by rewrite !at_out ?Hi // addr0.
    case: (ltnP j n) => Hj; last by rewrite !at_out ?Hj ?orbT // addr0. by rewrite !at_mxE mxE.
  rewrite F1 F2 (fmx_of HB) fmx_at -Ef. split=> // RK. split=> // i j. by rewrite -HB -[in RHS](P RK).
Qed.

Lemma step_cold i : sl_mode s = MOld ->
  \rank (fmx (mu f) (nu f) h *m (fmx (mu f) (nu f) (sc r f))^T) = r ->
  (forall j, h i j = 0 \/ forall k, sc r f k j = 0) -> forall j, sc r f1 i j = 0.
Proof.
  move=> Em. have [EU EI] := inv_sizes J. have [Ou Ov] := O. have SA := step_at. have DD := D.
  move: DD EU EI E SA Ou Ov. rewrite Em /h /sc /fok. case: (f) => [[u sm] vt] /=.
  set m := mu _. set n := nu _. set A := score_mx r m n (u, sm, vt). move=> [[DR DC] _] EU EI E' SA Ou Ov [/= Hu Hs Hv Hr].
  have Hd : shape d c (da_array 0 +%R of_rel (sl_da s)) := da_shape _ _.
  have Ed : d = m by rewrite /d DR EU Nat2Z.id.
  have Ec : c = n by rewrite /c DC EI Nat2Z.id.
  have HN i' j : at_mx N i' j = at_mx (mx m n (da_array 0 +%R of_rel (sl_da s))) i' j by rewrite /N Ed Ec.
  rewrite Ed Ec in Hd.
  move: E'. case E' : (psi_step _ _ _ _ _ _ _ _ _) => [[[u2 s2] v2t]|e] //= [Ef].
  have := psi_step_main QR Hu Hs Hv Hd. rewrite E' /=.
  move: (Hr) => /andP [R0]; rewrite leq_min => /andP [Rm Rn]. rewrite (minn_idPr Rm) (minn_idPr Rn) => -[H1 H2 H3 _ _].
  have F1 : mu f1 = m by rewrite -Ef /mu (proj1 H1).
  have F2 : nu f1 = n by rewrite -Ef /nu (proj2 H3).
  have HB i' j : at_mx (A + mx m n (da_array 0 +%R of_rel (sl_da s))) i' j = at_mx A i' j + landed s i' j.
    rewrite SA HN. case: (ltnP i' m) => Hi; last by rewrite !at_out ?Hi // addr0.
    case: (ltnP j n) => Hj; last by rewrite !at_out ?Hj ?orbT // addr0. by rewrite !at_mxE mxE.
  rewrite F1 F2 (fmx_of HB) fmx_at -Ef => RK Z j.
  case: (ltnP i m) => Hi; last by rewrite at_out ?Hi.
  have RZ : row (Ordinal Hi) ((A + mx m n (da_array 0 +%R of_rel (sl_da s))) *m A^T) = 0.
    apply/rowP => k. rewrite !mxE big1 // => t _. rewrite -at_ord HB [A^T t k]mxE -[A k t]at_ord.
    by case: (Z t) => /= H; [rewrite H mul0r|rewrite (H k) mulr0].
  have := psi_cold QR Hu Hs Hv Hd Hr Ou Ov E' RK RZ.
  case: (ltnP j n) => Hj RZ'; last by rewrite at_out ?Hj ?orbT.
  rewrite at_mxE. have := congr1 (fun M : 'rV_n => M 0 (Ordinal Hj)) RZ'. by rewrite [LHS]mxE [RHS]mxE.
Qed.

Lemma step_sizes : fok r f1 /\ [/\ (mu f <= mu f1)%N, (nu f <= nu f1)%N
  & match sl_mode s with
    | MNew => mu f1 = (mu f + d)%N /\ nu f1 = (nu f + c)%N
    | MNewUsers => mu f1 = (mu f + c)%N /\ (nu f1 = nu f /\ d = nu f)
    | MNewItems => nu f1 = (nu f + c)%N /\ (mu f1 = mu f /\ d = mu f)
    | MOld => (mu f1 = mu f /\ nu f1 = nu f) /\ (d = mu f /\ c = nu f)
    end].
Proof.
  have [a [b [U J1]]] := inv_ok QR SV TR AS NO J D E.
  have [EU EI F] := inv_sizes J. have [EU1 EI1 F1] := inv_sizes J1. split=> //.
  case: D => DR [D1 [D2 _]]. move: U DR. rewrite /updater /d /c.
  case: (sl_mode s); [|case: (cf_init cfg); [case: (brand_fits _) => //| |] ..|]; case=> Ea Eb; rewrite -?plusE => DR; subst a b; split; try apply/leP; try (by case: DR; lia); lia.
Qed.

Lemma landed_out i j : (mu f1 <= i)%N || (nu f1 <= j)%N -> landed s i j = 0.
Proof.
  have [_ [L1 L2 SZ]] := step_sizes. rewrite step_at. have NZ := at_out N.
  case: (sl_mode s) SZ => -[E1 E2] H.
  - case: ifP => // /norP []. rewrite -!leqNgt => H1 H2. by rewrite NZ // !leq_subRL // -E1 -E2.
  - case: E2 => E2 E3. case: ltnP => // Hi. by rewrite NZ // E3 leq_subRL // -E1 -E2 orbC.
  - case: E2 => E2 E3. case: ltnP => // Hi. by rewrite NZ // E3 leq_subRL // -E1 -E2.
  - case: E1 E2 => E1 E2 [E3 E4]. by rewrite NZ // E3 E4 -E1 -E2.
Qed.

Lemma step_rank m n : (mu f1 <= m)%N -> (nu f1 <= n)%N -> \rank (fmx m n h) = \rank (fmx (mu f1) (nu f1) h).
Proof.
  move=> H1 H2. apply: rank_fmx => // i j H. have [_ [L1 L2 _]] := step_sizes.
  rewrite /h landed_out // sc_out ?addr0 //. by case/orP: H => H; rewrite ?(leq_trans L1 H) ?(leq_trans L2 H) ?orbT.
Qed.
End Step.

Lemma runs_mono r l : forall f f', fok r f -> runs r l f f' -> [/\ fok r f', (mu f <= mu f')%N & (nu f <= nu f')%N].
Proof.
  elim: l => [|s l IH] f f' F /=; first by move=> ->.
  move=> [f1 [J [D [E H]]]]. have [F1 [L1 L2 _]] := step_sizes J D E. have [F' L3 L4] := IH _ _ F1 H.
  by rewrite (leq_trans L1 L3) (leq_trans L2 L4).
Qed.

Section Stages.
Variables (r : nat) (st' : psi_state).
Lemma runs1 s f f1 : runs r [:: s] f f1 ->
  [/\ inv r (sl_users s) (sl_items s) f, dims (sl_mode s) (sl_da s) (sl_users s) (sl_items s)
    & num_updater (sl_mode s) (da_array 0 +%R of_rel (sl_da s)) f = Ok f1].
Proof. by move=> [g [H1 [H2 [H3 H4]]]]; rewrite /= in H4; subst g. Qed.

Lemma total_nil i j : total st' [::] i j = 0. Proof. by rewrite /Num_spec.total big_nil. Qed.

Definition kept f f1 (g : nat -> nat -> R) := ort r f1 /\ forall i j, sc r f1 i j = sc r f i j + g i j.
Lemma kept_refl f : ort r f -> kept f f (total st' [::]).
Proof. by move=> O; split=> // i j; rewrite total_nil addr0. Qed.
Lemma kept_0 f f1 : reached r f f1 (sc r f) -> kept f f1 (fun _ _ => 0).
Proof. by move=> [O _ _ H]; split=> // i j; rewrite addr0. Qed.
Lemma kept_step s f f1 : step_lands st' s -> reached r f f1 (fun i j => sc r f i j + landed s i j) -> kept f f1 (total st' (sl_data s)).
Proof. by move=> SL [O _ _ H]; split=> // i j; rewrite H (landed_total of_rel i j SL). Qed.

Variables (m n : nat) (f f1 : @triple R) (dt : list irow) (l : list step_log) (md : mode).
Hypotheses (ST : stage st' md dt l) (RN : runs r l f f1) (O : ort r f) (L1 : (mu f1 <= m)%N) (L2 : (nu f1 <= n)%N).
Let T := fmx m n (fun i j => sc r f i j + total st' dt i j).

Lemma T_step s : step_lands st' s -> sl_data s = dt -> T = fmx m n (fun i j => sc r f i j + landed s i j).
Proof. by move=> SL Ed; apply/matrixP => i j; rewrite !mxE (landed_total of_rel _ _ SL) Ed. Qed.

Lemma stage_new : md = MNew -> cf_integrator cfg = false ->
  (match f.1.2 with SVec v => all (fun y => 0 <= y) v | SMat _ => true end) -> (\rank T <= r)%N ->
  kept f f1 (total st' dt) /\ (dt <> [::] -> (smx r r f1.1.2)^T = smx r r f1.1.2).
Proof.
  move=> Em Ei Hn RK. case: ST => [[Ed El]|[s [Nd [El [Es [Ed SL]]]]]]; subst l.
    rewrite Ed. move: RN => /= ->. split=> //. exact: kept_refl.
  have [J D E] := runs1 RN. rewrite Em in Es. rewrite (T_step SL Ed) (step_rank J D E L1 L2) in RK.
  rewrite -Ed. split; first exact: kept_step (step_new J D E O Es Ei Hn RK).
  move=> _. move: E. rewrite Es. case: (f) => [[u sm] vt] /=. rewrite Ei.
  case: (update_svd_new_submatrix _ _ _ _ _ _ _ _ _ _) => [[[u2 s2] v2t]|e] //= [<-].
  by rewrite smx_vec tr_diag_mx.
Qed.

Lemma stage_new_zero : md = MNew -> cf_integrator cfg = true -> kept f f1 (fun _ _ => 0).
Proof.
  move=> Em Ei. case: ST => [[Ed El]|[s [Nd [El [Es [Ed SL]]]]]]; subst l.
    move: RN => /= ->. by split=> // i j; rewrite addr0.
  have [J D E] := runs1 RN. rewrite Em in Es. apply: kept_0. exact: step_new_zero J E O Es Ei.
Qed.

Lemma stage_users : md = MNewUsers -> cf_init cfg = INone ->
  (dt <> [::] -> \rank T = r /\ (smx r r f.1.2)^T = smx r r f.1.2) -> kept f f1 (total st' dt).
Proof.
  move=> Em Ei. case: ST => [[Ed El]|[s [Nd [El [Es [Ed SL]]]]]] RK; subst l.
    rewrite Ed. move: RN => /= ->. exact: kept_refl.
  have [RK' SY] := RK Nd. have [J D E] := runs1 RN. rewrite Em in Es. rewrite (T_step SL Ed) (step_rank J D E L1 L2) in RK'.
  rewrite -Ed. exact: kept_step (step_users J D E O Es Ei SY RK').
Qed.

Lemma stage_items : md = MNewItems -> cf_init cfg = INone -> (dt <> [::] -> \rank T = r) -> kept f f1 (total st' dt).
Proof.
  move=> Em Ei. case: ST => [[Ed El]|[s [Nd [El [Es [Ed SL]]]]]] RK; subst l.
    rewrite Ed. move: RN => /= ->. exact: kept_refl.
  have RK' := RK Nd. have [J D E] := runs1 RN. rewrite Em in Es. rewrite (T_step SL Ed) (step_rank J D E L1 L2) in RK'.
  rewrite -Ed. exact: kept_step (step_items J D E O Es Ei RK').
Qed.

Lemma stage_zero : md = MNewUsers \/ md = MNewItems -> cf_init cfg = IZero -> kept f f1 (fun _ _ => 0).
Proof.
  move=> Em Ei. case: ST => [[Ed El]|[s [Nd [El [Es [Ed SL]]]]]]; subst l.
    move: RN => /= ->. by split=> // i j; rewrite addr0.
  have [J D E] := runs1 RN. apply: kept_0.
  by case: Em => Em; rewrite Em in Es; [exact: step_users_zero J E O Es Ei|exact: step_items_zero J E O Es Ei].
Qed.

Lemma stage_old : md = MOld -> \rank (T *m (fmx m n (sc r f))^T) = \rank T -> m = mu f1 -> n = nu f1 -> kept f f1 (total st' dt).
Proof.
  move=> Em. case: ST => [[Ed El]|[s [Nd [El [Es [Ed SL]]]]]] RK E1 E2; subst l.
    rewrite Ed. move: RN => /= ->. exact: kept_refl.
  have [J D E] := runs1 RN. rewrite Em in Es. rewrite (T_step SL Ed) E1 E2 in RK.
  rewrite -Ed. apply: kept_step => //. by have [_] := step_old J D E O Es; apply.
Qed.
End Stages.

Lemma total_perm st (a b : list irow) i j : Permutation.Permutation a b -> total st a i j = total st b i j.
Proof.
  rewrite /Num_spec.total. elim=> [|x l l' _ IH|x y l|l l' l'' _ -> _ ->] //; rewrite !big_cons ?IH //.
  by case: (hits _ _ _ x); case: (hits _ _ _ y) => //; rewrite addrCA.
Qed.
Lemma total_cat st (a b : list irow) i j : total st (a ++ b) i j = total st a i j + total st b i j.
Proof. by rewrite /Num_spec.total big_cat. Qed.


Lemma score_sc r x : model_ok r x -> score r x = sc r (nm_f x).
Proof. by move=> [_ F]; rewrite /score /sc; have [-> ->] := fok_at F. Qed.

Lemma update_lossless_main r x data x' : model_ok r x -> ortho r (users_of (nm_book x)) (items_of (nm_book x)) (nm_f x) ->
  nonneg_middle (nm_f x).1.2 -> num_update x data = Ok x' -> lossless_update of_rel cfg r x (nm_book x') data ->
  [/\ model_ok r x', ortho r (users_of (nm_book x')) (items_of (nm_book x')) (nm_f x'), nonneg_middle (nm_f x').1.2
    & forall i j, score r x' i j = score r x i j + total (nm_book x') data i j].
Proof.
  move=> M OX NM E. have := book_main of_rel exceeds_eps QR SV TR AS NO cfg data M. rewrite E => -[PU M' [f [l [EL RN J EF]]]].
  have F0 : fok r (nm_f x) by case: M => _ F; rewrite /fok; have [-> ->] := fok_at F.
  have O0 : ort r (nm_f x) by case: M => _ F; rewrite /ort; have [-> ->] := fok_at F.
  have [l1 [l2 [l3 [l4 [EL' [S1 [S2 [S3 S4]]]]]]]] := update_stages _ _ _ _ (proj1 M) PU.
  have El : l = l1 ++ l2 ++ l3 ++ l4 by apply: (List.app_inv_head (ps_log (nm_book x))); exact: (eq_trans (esym EL) EL').
  rewrite El in RN. have [f1 [R1 {}RN]] := runs_split _ _ _ _ _ _ _ _ _ _ _ _ _ _ _ _ _ _ RN.
  have [f2 [R2 {}RN]] := runs_split _ _ _ _ _ _ _ _ _ _ _ _ _ _ _ _ _ _ RN.
  have [f3 [R3 R4]] := runs_split _ _ _ _ _ _ _ _ _ _ _ _ _ _ _ _ _ _ RN.
  have [F1 A1 B1] := runs_mono F0 R1. have [F2 A2 B2] := runs_mono F1 R2. have [F3 A3 B3] := runs_mono F2 R3. have [F4 A4 B4] := runs_mono F3 R4.
  have [Em En _] := inv_sizes J. have Hm : users_of (nm_book x') = mu f by rewrite /users_of Em Nat2Z.id.
  have Hn : items_of (nm_book x') = nu f by rewrite /items_of En Nat2Z.id.
  rewrite /lossless_update Hm Hn (score_sc M). set st := nm_book x in PU S1 S2 S3 S4 EL EL' *. set st' := nm_book x' in PU EL EL' S1 S2 S3 S4 Em En J Hm Hn *.
  have A3' := leq_trans A3 A4. have B3' := leq_trans B3 B4. have A2' := leq_trans A2 A3'. have B2' := leq_trans B2 B3'.
  have PM := late_early cfg st data. rewrite -/(early_rows cfg st data) in PM.
  move=> [CE CL].
  have [O3 H3] : kept r (nm_f x) f3 (total st' (early_rows cfg st data)).
    move: CE. rewrite /early_rows. case Ei : (cf_init cfg) => //.
    - have Eg : cf_integrator cfg = false.
        move: PU. rewrite /psi_update Ei. by case: (cf_integrator cfg).
      move=> [C1 C2 C3]. have [[O1 H1] SY] := stage_new S1 R1 O0 A2' B2' erefl Eg NM C1.
      have [O2 H2] : kept r f1 f2 (total st' (part_new_users st data)).
        apply: (stage_users S2 R2 O1 A3' B3' erefl Ei) => Nd. have [C2a C2b] := C2 Nd. split.
          rewrite -[RHS]C2a. congr mxrank. apply/matrixP => i j. by rewrite !mxE H1 total_cat addrA.
        case: (part_new st data) S1 SY C2b => [|a0 l0] S1 SY C2b; last exact: SY.
        case: S1 => [[_ El1]|[? [Nd1 _]]] //. subst l1. move: R1 => /= ->. exact: C2b.
      have [O3 H3] : kept r f2 f3 (total st' (part_new_items st data)).
        apply: (stage_items S3 R3 O2 A4 B4 erefl Ei) => Nd. rewrite -[RHS](C3 Nd). congr mxrank. apply/matrixP => i j.
        by rewrite !mxE H2 H1 !total_cat !addrA.
      split=> // i j. by rewrite H3 H2 H1 !total_cat !addrA.
    - case Eg : (cf_integrator cfg) => C1.
        have [O1 H1] := stage_new_zero S1 R1 O0 erefl Eg.
        have [O2 H2] := stage_zero S2 R2 O1 (or_introl erefl) Ei.
        have [O3 H3] := stage_zero S3 R3 O2 (or_intror erefl) Ei.
        split=> // i j. by rewrite H3 H2 H1 total_nil !addr0.
      have [[O1 H1] _] := stage_new S1 R1 O0 A2' B2' erefl Eg NM C1.
      have [O2 H2] := stage_zero S2 R2 O1 (or_introl erefl) Ei.
      have [O3 H3] := stage_zero S3 R3 O2 (or_intror erefl) Ei.
      split=> // i j. by rewrite H3 H2 H1 !addr0.
  have [O4 H4] : kept r f3 f (total st' (late_rows cfg st data)).
    apply: (stage_old S4 R4 O3 erefl _ erefl erefl).
    have -> : fmx (mu f) (nu f) (fun i j => sc r f3 i j + total st' (late_rows cfg st data) i j)
            = fmx (mu f) (nu f) (fun i j => sc r (nm_f x) i j + total st' data i j).
      apply/matrixP => i j. by rewrite !mxE H3 -(total_perm _ _ _ PM) total_cat addrA.
    rewrite -[RHS]CL. congr (\rank (_ *m _^T)). apply/matrixP => i j. by rewrite !mxE H3.
  have EO : ortho r (mu f) (nu f) (nm_f x') by rewrite EF.
  split=> //; first by rewrite EF.
  move=> i j. rewrite /score Hm Hn EF. have [_ ES] := factors_smat F4.
  rewrite /score_mx [_.1.1]/= [_.2]/= [X in smx r r X]/= ES -/(score_mx r (mu f) (nu f) f) -/(sc r f).
  by rewrite H4 H3 -(total_perm _ _ _ PM) total_cat addrA.
Qed.
End Lossless.
