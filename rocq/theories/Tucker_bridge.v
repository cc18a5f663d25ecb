(** Unfoldings, Kronecker products and the tensor routines as mathcomp matrices. *)
From Verif Require Import Prelude Prelude_proofs Tensor_model Tensor_spec Tensor_main Tensor_project Tensor_core Tensor_extra
  Matrix_model Attention_model LinAlg_model.
Set Warnings "-notation-overridden".
From mathcomp Require Import all_ssreflect all_algebra.
From Verif Require Import LinAlg_spec LinAlg_bridge Tucker_model Tucker_spec.
Set Implicit Arguments.
Unset Strict Implicit.
Unset Printing Implicit Defensive.
Import GRing.Theory.
Local Open Scope ring_scope.

Lemma pair_lt na nb (x : 'I_na) (y : 'I_nb) : (x + na * y < na * nb)%N.
Proof.
  have -> : (na * nb = na * y + na * (nb - y))%N by rewrite -mulnDr subnKC // ltnW.
  rewrite addnC ltn_add2l. apply: leq_trans (ltn_ord x) _. by rewrite leq_pmulr // subn_gt0.
Qed.
Definition lohi na nb (x : 'I_na) (y : 'I_nb) : 'I_(na * nb) := Ordinal (pair_lt x y).
Lemma lo_lohi na nb (x : 'I_na) (y : 'I_nb) : lo (lohi x y) = x.
Proof. by apply: val_inj; rewrite /= addnC mulnC modnMDl modn_small. Qed.
Lemma hi_lohi na nb (x : 'I_na) (y : 'I_nb) : hi (lohi x y) = y.
Proof. by apply: val_inj; rewrite /= addnC mulnC divnMDl ?divn_small ?addn0 //; case: na x => // -[]. Qed.
Lemma lohiK na nb (z : 'I_(na * nb)) : lohi (lo z) (hi z) = z.
Proof. by apply: val_inj; rewrite /= addnC mulnC -divn_eq. Qed.

Section Index.
Variable R : comRingType.

Lemma sum_lohi na nb (F : 'I_na -> 'I_nb -> R) :
  \sum_(y < na * nb) F (lo y) (hi y) = \sum_(x < na) \sum_(y < nb) F x y.
Proof.
  rewrite pair_bigA (reindex (fun y : 'I_(na * nb) => (lo y, hi y))) //=.
  exists (fun p => lohi p.1 p.2) => [y _|[x y] _] /=; by rewrite ?lohiK ?lo_lohi ?hi_lohi.
Qed.

Lemma krnM na ra sa nb rb sb (A : 'M[R]_(na, ra)) (B : 'M_(nb, rb)) (C : 'M_(ra, sa)) (D : 'M_(rb, sb)) :
  krn A B *m krn C D = krn (A *m C) (B *m D).
Proof.
  apply/matrixP => y z; rewrite !mxE.
  under eq_bigr => i _ do rewrite !mxE.
  rewrite (sum_lohi (fun i j => A (lo y) i * B (hi y) j * (C i (lo z) * D j (hi z)))).
  rewrite big_distrl /=. apply: eq_bigr => i _. rewrite big_distrr /=. apply: eq_bigr => j _. by rewrite mulrACA.
Qed.

Lemma krn1 na nb : krn (1%:M : 'M[R]_na) (1%:M : 'M_nb) = 1%:M.
Proof.
  apply/matrixP => y z; rewrite !mxE -natrM mulnb. congr (_%:R). congr nat_of_bool.
  apply/andP/eqP => [[/eqP E1 /eqP E2]|->]; last by rewrite !eqxx.
  by rewrite -(lohiK y) E1 E2 lohiK.
Qed.

Lemma krn_tr na ra nb rb (A : 'M[R]_(na, ra)) (B : 'M_(nb, rb)) : (krn A B)^T = krn A^T B^T.
Proof. by apply/matrixP => y z; rewrite !mxE. Qed.

Lemma unf_eq n a nn na nb (s t : cell -> R) :
  (forall i x y, (i < nn)%N -> (x < na)%N -> (y < nb)%N -> s (place n a i x y) = t (place n a i x y)) ->
  unf n a nn na nb s = unf n a nn na nb t.
Proof. by move=> H; apply/matrixP => i y; rewrite !mxE H. Qed.

Lemma unf_inj n a nn na nb (s t : cell -> R) : unf n a nn na nb s = unf n a nn na nb t ->
  forall i x y, (i < nn)%N -> (x < na)%N -> (y < nb)%N -> s (place n a i x y) = t (place n a i x y).
Proof.
  move=> /matrixP E i x y Hi Hx Hy. move: (E (Ordinal Hi) (lohi (Ordinal Hx) (Ordinal Hy))).
  by rewrite !mxE lo_lohi hi_lohi.
Qed.

(** The three modes with the sizes of a triple. *)
Lemma place_pick mode n a b i x y : modes mode n a b ->
  [/\ axis (place n a i x y) n = i, axis (place n a i x y) a = x & axis (place n a i x y) b = y].
Proof. by case. Qed.

Lemma place_range mode n a b sh i x y : modes mode n a b ->
  in_range sh (place n a i x y) <-> [/\ (i < axis sh n)%N, (x < axis sh a)%N & (y < axis sh b)%N].
Proof.
  case: sh => [[s0 s1] s2]. rewrite /in_range.
  by case=> /=; split => [[/ltP ? [/ltP ? /ltP ?]]|[/ltP ? /ltP ? /ltP ?]].
Qed.

Lemma pick_place mode n a b (c : cell) : modes mode n a b -> place n a (axis c n) (axis c a) (axis c b) = c.
Proof. by case: c => [[x y] z]; case. Qed.
End Index.

Section Routines.
Variable R : comRingType.
Notation tget := (tget (0 : R)).
Notation mget := (mget (0 : R)).

Lemma unfold_ok (t : ten R) mode n a b nn na nb : twf t -> modes mode n a b ->
  axis (tshape t) n = nn -> axis (tshape t) a = na -> axis (tshape t) b = nb ->
  exists2 m, unfold_dense 0 t mode = Ok m & shape nn (na * nb) m /\ mx nn (na * nb) m = unf n a nn na nb (tget t).
Proof.
  move=> W M <- <- <-. have [m [-> [_ [H1 [H2 H]]]]] := unfold_dense_main (0 : R) t mode n a b W M.
  exists m => //; split; first by [].
  apply/matrixP => i y; rewrite !mxE -(H (place n a i (lo y) (hi y))); last by apply/(place_range _ _ _ _ M).
  have [-> -> ->] := place_pick i (lo y) (hi y) M. congr Tensor_model.mget. exact: (esym (congr1 val (lohiK y))).
Qed.

Lemma mwf_build m n (f : nat -> nat -> R) : mwf (build m n f).
Proof. exact: Matrix_main.build_wf. Qed.

Lemma dot_mwf (x y z : mat R) : dot 0 +%R *%R x y = Ok z -> mwf z.
Proof. rewrite /dot. by case: ifP => // _ [<-]; apply: mwf_build. Qed.

Lemma fold_ok (m : mat R) sh mode n a b nn na nb : mwf m -> modes mode n a b ->
  axis sh n = nn -> axis sh a = na -> axis sh b = nb -> shape nn (na * nb) m ->
  exists2 t, fold_dense 0 m sh mode = Ok t & [/\ twf t, tshape t = sh & unf n a nn na nb (tget t) = mx nn (na * nb) m].
Proof.
  move=> W M <- <- <- [H1 H2].
  have [_] := fold_dense_main (0 : R) m sh mode n a b W M.
  case.
    rewrite H1 H2 !multE. case: M => /=; first by rewrite mulnA.
      by rewrite mulnCA mulnA.
    by rewrite mulnC.
  move=> t [-> [Wt [St H]]]. exists t => //; split => //.
  apply/matrixP => i y; rewrite !mxE H; last by apply/(place_range _ _ _ _ M).
  have [-> -> ->] := place_pick i (lo y) (hi y) M. rewrite /Tensor_model.mget H2. congr (List.nth _ _ _).
  rewrite !multE !plusE. congr (_ + _)%N. exact: (congr1 val (lohiK y)).
Qed.

Lemma dense_cons e (es : list (cell * R)) c : dense (e :: es) c = (if e.1 == c then e.2 else 0) + dense es c.
Proof. rewrite /dense big_cons. by case: ifP => // _; rewrite add0r. Qed.

Lemma dense_nil c : dense (nil : list (cell * R)) c = 0.
Proof. by rewrite /dense big_nil. Qed.

Lemma dense_sum mode n a b na nb (es : list (cell * R)) (r : nat) (F : nat -> nat -> R) : modes mode n a b ->
  all (fun e => (axis e.1 a < na)%N && (axis e.1 b < nb)%N) es ->
  \sum_(y < na * nb) dense es (place n a r (lo y) (hi y)) * F (lo y) (hi y)
  = \sum_(e <- es | axis e.1 n == r) e.2 * F (axis e.1 a) (axis e.1 b).
Proof.
  move=> M; elim: es => [|e es IH] /=.
    by move=> _; rewrite big_nil big1 // => y _; rewrite dense_nil mul0r.
  move=> /andP [/andP [Ha Hb] /IH E]. rewrite big_cons -E.
  under eq_bigr => y _ do rewrite dense_cons mulrDl. rewrite big_split /=.
  have -> : \sum_(y < na * nb) (if e.1 == place n a r (lo y) (hi y) then e.2 else 0) * F (lo y) (hi y)
          = if axis e.1 n == r then e.2 * F (axis e.1 a) (axis e.1 b) else 0; last by case: ifP; rewrite ?add0r.
  rewrite (bigD1 (lohi (Ordinal Ha) (Ordinal Hb))) // lo_lohi hi_lohi big1 ?addr0 /=.
    have -> : (e.1 == place n a r (axis e.1 a) (axis e.1 b)) = (axis e.1 n == r); last by rewrite addr0; case: ifP; rewrite ?mul0r.
    have [E2 _ _] := place_pick r (axis e.1 a) (axis e.1 b) M. have E3 := pick_place e.1 M.
    apply/eqP/eqP => [E1|E1]; first by rewrite -[in RHS]E2 -E1. by rewrite -{1}E3 E1.
  move=> y Hy. case: eqP => [E1|]; last by rewrite mul0r.
  have [_ E2 E3] := place_pick r (lo y) (hi y) M. case/negP: Hy.
  rewrite -E1 in E2 E3. rewrite -(lohiK y). apply/eqP; congr lohi; exact: val_inj.
Qed.

Lemma kron_qE na ra nb rb k (u1 u2 q : mat R) (y : 'I_(na * nb)) (j : 'I_k) :
  shape na ra u1 -> shape nb rb u2 ->
  kron_q 0 +%R *%R q u1 u2 (lo y) (hi y) j = (krn (mx na ra u1) (mx nb rb u2) *m mx (ra * rb) k q) y j.
Proof.
  move=> [_ Hc1] [_ Hc2]. rewrite /kron_q Hc1 Hc2 sumn_big mxE.
  rewrite (eq_bigr (fun z : 'I_rb => \sum_(x < ra) mget u2 (hi y) z * mget u1 (lo y) x * mget q (z * ra + x) j));
    last by move=> i _; rewrite sumn_big.
  rewrite exchange_big /=.
  rewrite -(sum_lohi (fun x z => mget u2 (hi y) z * mget u1 (lo y) x * mget q (z * ra + x) j)).
  apply: eq_bigr => z _. rewrite !mxE [X in X * _]mulrC. congr (_ * _). congr Tensor_model.mget.
  rewrite addnC mulnC. exact: (congr1 val (lohiK z)).
Qed.

Lemma sum_big (l : list R) : Tensor_spec.sum 0 +%R l = \sum_(x <- l) x.
Proof. by elim: l => [|x l IH]; rewrite ?big_nil // big_cons -IH. Qed.

Lemma max_points_pos : lt 0 max_points.
Proof. rewrite /max_points. by apply/ltP/ltP; apply: PeanoNat.Nat.ltb_spec0; vm_compute. Qed.

Variable is_one : R -> bool.
Hypothesis ONE : forall v, is_one v = true -> v = 1.

Lemma range_all mode n a b na nb (es : list (cell * R)) sh : modes mode n a b ->
  axis sh a = na -> axis sh b = nb -> List.Forall (fun e => in_range sh e.1) es ->
  all (fun e => (axis e.1 a < na)%N && (axis e.1 b < nb)%N) es.
Proof.
  move=> M <- <-. elim=> //= e l H _ ->. rewrite andbT.
  move: H. rewrite -{1}(pick_place e.1 M). by move=> /(place_range _ _ _ _ M) [_ -> ->].
Qed.

Lemma Forall_combine (P : cell -> Prop) (inds : list cell) (vals : list R) :
  List.Forall P inds -> List.Forall (fun e => P e.1) (List.combine inds vals).
Proof.
  move=> H; elim: H vals => [|c l Hc _ IH] [|v vals] /=; by constructor.
Qed.

Lemma Forall_firstn T (P : T -> Prop) (l : list T) k : List.Forall P l -> List.Forall P (List.firstn k l).
Proof. move=> H; elim: H k => [|x l' Hx _ IH] [|k] /=; by constructor. Qed.

Lemma filter_big (es : list (cell * R)) (p : cell * R -> bool) (f : cell * R -> R) :
  Tensor_spec.sum 0 +%R (List.map f (List.filter p es)) = \sum_(e <- es | p e) f e.
Proof. elim: es => [|e es IH] /=; first by rewrite big_nil. rewrite big_cons -IH. by case: (p e). Qed.

Lemma double_ok mode n a b nn na ra nb rb k inds (vals : list R) sh (q u1 u2 : mat R) : modes mode n a b ->
  axis sh n = nn -> axis sh a = na -> axis sh b = nb ->
  shape (ra * rb) k q -> shape na ra u1 -> shape nb rb u2 ->
  inds <> nil -> length vals = length inds -> List.Forall (in_range sh) inds ->
  exists2 m, sparse_tensor_double_tensor 0 +%R *%R is_one inds vals sh q mode u1 u2 = Ok m
    & shape nn k m /\ mx nn k m = unf n a nn na nb (dense (done_entries inds vals)) *m krn (mx na ra u1) (mx nb rb u2) *m mx (ra * rb) k q.
Proof.
  move=> M En Ea Eb Hq H1 H2 NE LV FR.
  have [_ /(_ NE) [I P]] := double_tensor_main (0 : R) 1 +%R *%R _ _ (RT R) max_points is_one inds vals sh q mode n a b u1 u2
     M max_points_pos ONE.
  have [m Em] : exists m, sparse_tensor_double_tensor_cap 0 +%R *%R max_points is_one inds vals sh q mode u1 u2 = Ok m.
    apply/I; split; last split.
    - by case: Hq => -> _; case: H1 => _ ->; case: H2 => _ ->; rewrite multE mulnC.
    - rewrite LV. have [_] := processed_eq max_points (length inds) max_points_pos (ltac:(destruct inds; [congruence|cbn; apply PeanoNat.Nat.lt_0_succ])). by [].
    - apply: Forall_firstn. apply: List.Forall_impl FR => c.
      rewrite -{1}(pick_place c M) => /(place_range _ _ _ _ M) [/ltP L1 /ltP L2 /ltP L3].
      by case: H1 => -> _; case: H2 => -> _; rewrite -Ea -Eb.
  exists m => //. have [_ [Hr [Hc C]]] := P m Em. case: (Hq) => Hqr Hqc. rewrite En in Hr C. rewrite Hqc in Hc C.
  split; first by [].
  apply/matrixP => r j; rewrite -mulmxA !mxE C; try exact/ltP.
  rewrite filter_big.
  rewrite -/(done_entries inds vals).
  transitivity (\sum_(e <- done_entries inds vals | axis e.1 n == r) e.2 * kron_q 0 +%R *%R q u1 u2 (axis e.1 a) (axis e.1 b) j).
    by apply: eq_bigl => e; rewrite eqb_eqn.
  rewrite -(dense_sum (na := na) (nb := nb) r (fun x y => kron_q 0 +%R *%R q u1 u2 x y j) M).
    apply: eq_bigr => y _. rewrite (kron_qE (na := na) (nb := nb) q y j H1 H2). by rewrite [in RHS]mxE.
  apply: (range_all M Ea Eb). apply: Forall_firstn. exact: Forall_combine.
Qed.

Lemma denseE (es : list (cell * R)) c : Tensor_spec.sum 0 +%R (values_at c es) = dense es c.
Proof.
  rewrite /values_at filter_big /dense. apply: eq_bigl => -[[[x y] z] v] /=. case: c => [[x' y'] z'].
  by rewrite /coord_eqb /= !eqb_eqn -!pair_eqE /=.
Qed.

Lemma core_ok n0 r0 n1 r1 n2 r2 inds (vals : list R) (u v w : mat R) :
  shape n0 r0 u -> shape n1 r1 v -> shape n2 r2 w ->
  length vals = length inds -> List.Forall (in_range (n0, n1, n2)) inds ->
  exists2 t, construct_core 0 +%R *%R inds vals u v w = Ok t
    & [/\ twf t, tshape t = (r0, r1, r2)
        & forall (a : 'I_r0) (b : 'I_r1) (c : 'I_r2), tget t (a : nat, b : nat, c : nat)
          = \sum_(i < n0) \sum_(j < n1) \sum_(k < n2)
              dense (List.combine inds vals) (i : nat, j : nat, k : nat) * mx n0 r0 u i a * mx n1 r1 v j b * mx n2 r2 w k c].
Proof.
  move=> [Hu1 Hu2] [Hv1 Hv2] [Hw1 Hw2] LV FR.
  have [I _] := entries_in_iff inds vals (mr u, mr v, mr w).
  have E : entries_in inds vals (mr u, mr v, mr w) = Ok (List.combine inds vals).
    by apply/I; rewrite Hu1 Hv1 Hw1 LV; do !split => //; apply: Forall_firstn.
  have Ec : exists t, construct_core 0 +%R *%R inds vals u v w = Ok t by rewrite /construct_core E /=; eexists.
  case: Ec => t Et. exists t => //.
  have [W [S _]] := core_bit_exact_main (0 : R) +%R *%R inds vals u v w t Et.
  split; first by []; first by rewrite S Hu2 Hv2 Hw2.
  move=> a b c. rewrite (core_contraction_main (0 : R) 1 +%R *%R _ _ (RT R) inds vals u v w t a b c Et) ?Hu2 ?Hv2 ?Hw2; try exact/ltP.
  rewrite Hu1 Hv1 Hw1 sumn_big. apply: eq_bigr => i _. rewrite sumn_big. apply: eq_bigr => j _. rewrite sumn_big.
  apply: eq_bigr => k _. by rewrite denseE !mxE.
Qed.
End Routines.
