(** Building blocks of the iterative Tucker decompositions read as mathcomp matrices. *)
From Verif Require Import Prelude Tensor_model Tensor_spec Matrix_model Attention_model LinAlg_model Hooi_model.
From Verif Require Import Tensor_sums Tensor_dot.
Set Warnings "-notation-overridden".
From mathcomp Require Import all_ssreflect all_algebra.
From Verif Require Import LinAlg_spec LinAlg_bridge Tucker_spec Tucker_bridge Hooi_spec.
Set Implicit Arguments.
Unset Strict Implicit.
Unset Printing Implicit Defensive.
Import GRing.Theory.
Local Open Scope ring_scope.

Section Bridge.
Variable R : comRingType.
Notation mget := (Tensor_model.mget (0 : R)).
Notation contraction := (Hooi_model.contraction (0 : R) +%R *%R).

Lemma others_modes mode n a b : modes mode n a b -> others n = (a, b).
Proof. by case. Qed.

Lemma place_at n a b mode i y z : modes mode n a b ->
  place n a i y z = (if n is 0 then at0 i y z else if n is 1 then at1 i y z else at2 i y z).
Proof. by case. Qed.

Lemma tensordot2_ok mode n a b nn na ra nb rb inds (vals : list R) sh (u v : mat R) : modes mode n a b ->
  axis sh n = nn -> axis sh a = na -> axis sh b = nb -> shape na ra u -> shape nb rb v ->
  length vals = length inds -> List.Forall (in_range sh) inds ->
  exists2 t, tensordot2 0 +%R *%R inds vals sh u v (BinInt.Z.of_nat a) (BinInt.Z.of_nat b) = Ok t
    & [/\ twf t, tshape t = (nn, ra, rb)
        & forall i j k, (i < nn)%N -> (j < ra)%N -> (k < rb)%N ->
          tget 0 t (i, j, k) = \sum_(y < na) \sum_(z < nb) dense (List.combine inds vals) (place n a i y z) * mget u y j * mget v z k].
Proof.
  move=> M En Ea Eb [Hu1 Hu2] [Hv1 Hv2] LV FR.
  have := tensordot2_main (0 : R) +%R *%R inds vals sh u v (BinInt.Z.of_nat a) (BinInt.Z.of_nat b).
  have [E0 [Ev1 [Ev2 Ev3]]] : BinInt.Z.to_nat (BinInt.Z.sub (BinNums.Zpos (BinNums.xI BinNums.xH)) (BinInt.Z.add (BinInt.Z.of_nat a) (BinInt.Z.of_nat b))) = n
     /\ valid2 (BinInt.Z.of_nat a) /\ valid2 (BinInt.Z.of_nat b) /\ BinInt.Z.of_nat a <> BinInt.Z.of_nat b.
    by case: M; rewrite /valid2; do !split; auto.
  rewrite E0 !Znat.Nat2Z.id /= => -[_ [_ /(_ (conj Ev1 (conj Ev2 Ev3)))]].
  case.
    split; first by rewrite LV. apply: Forall_firstn. apply: List.Forall_impl FR => c.
    rewrite -{1}(pick_place c M) => /(place_range _ _ _ _ M) [/ltP L1 /ltP L2 /ltP L3].
    by rewrite Hu1 Hv1 -Ea -Eb.
  move=> t [-> [W [S P]]]. exists t => //. split=> //; first by rewrite S En Hu2 Hv2.
  move=> i j k Hi Hj Hk. rewrite P ?En ?Hu2 ?Hv2; try exact/ltP.
  rewrite (fold_left_sum _ _ _ _ _ _ (RT R)) add0r filter_big.
  transitivity (\sum_(e <- List.combine inds vals | axis e.1 n == i) e.2 * (mget u (axis e.1 a) j * mget v (axis e.1 b) k)).
    by under eq_bigl => e do rewrite eqb_eqn; apply: eq_bigr => e _; rewrite mulrA.
  rewrite -(dense_sum (na := na) (nb := nb) i (fun x y => mget u x j * mget v y k) M).
    rewrite (sum_lohi (fun (x : 'I_na) (y : 'I_nb) => dense (List.combine inds vals) (place n a i x y) * (mget u x j * mget v y k))).
    by apply: eq_bigr => x _; apply: eq_bigr => y _; rewrite mulrA.
  apply: (range_all M Ea Eb). exact: Forall_combine.
Qed.

Lemma tget_mget (t : ten R) nn ra rb i j k : tshape t = (nn, ra, rb) -> (k < rb)%N ->
  mget (mkMat nn (ra * rb) (tdat t)) i (j * rb + k) = tget 0 t (i, j, k).
Proof.
  move=> S Hk. rewrite /Tensor_model.mget /tget S /offset /= /c0 /c1 /c2 /=. congr (List.nth _ _ _).
  by rewrite !plusE !multE mulnDl mulnA addnA.
Qed.

Lemma contraction_ok mode n a b nn na ra nb rb inds (vals : list R) sh rank (fs : @factors R) : modes mode n a b ->
  axis sh n = nn -> axis sh a = na -> axis sh b = nb -> axis rank a = ra -> axis rank b = rb ->
  shape na ra (factor fs a) -> shape nb rb (factor fs b) ->
  length vals = length inds -> List.Forall (in_range sh) inds ->
  exists2 m, contraction inds vals sh rank fs n = Ok m
    & mwf m /\ contracts nn na ra nb rb (place n a) (dense (List.combine inds vals)) (factor fs a) (factor fs b) m.
Proof.
  move=> M En Ea Eb Ra Rb Hu Hv LV FR. rewrite /Hooi_model.contraction (others_modes M).
  have [t -> [W S P]] := tensordot2_ok M En Ea Eb Hu Hv LV FR. rewrite /= En Ra Rb /reshape32 S /Tensor_model.size /c0 /c1 /c2 /=.
  rewrite eqb_eqn !multE mulnA eqxx. eexists; first by []. split.
    by rewrite /mwf /= W S /c0 /c1 /c2 /= !multE mulnA.
  split; first by []. by move=> i j k Hi Hj Hk; rewrite (tget_mget i j S Hk) P.
Qed.

Lemma contraction_bad mode n a b nn na ra nb rb inds (vals : list R) sh rank (fs : @factors R) : modes mode n a b ->
  axis sh n = nn -> axis sh a = na -> axis sh b = nb -> (nn * (ra * rb) <> nn * (axis rank a * axis rank b))%N ->
  shape na ra (factor fs a) -> shape nb rb (factor fs b) ->
  length vals = length inds -> List.Forall (in_range sh) inds ->
  contraction inds vals sh rank fs n = Err ValueError.
Proof.
  move=> M En Ea Eb NE Hu Hv LV FR. rewrite /Hooi_model.contraction (others_modes M).
  have [t -> [W S P]] := tensordot2_ok M En Ea Eb Hu Hv LV FR. rewrite /= En /reshape32 S /Tensor_model.size /c0 /c1 /c2 /=.
  rewrite eqb_eqn !multE -mulnA. by case: eqP.
Qed.

(** A contraction only depends on the cells of the factors. *)
Lemma contracts_eq nn na ra nb rb c data (fa fb m fa' fb' m' : mat R) :
  (forall i j, (i < na)%N -> (j < ra)%N -> mget fa i j = mget fa' i j) ->
  (forall i j, (i < nb)%N -> (j < rb)%N -> mget fb i j = mget fb' i j) ->
  mwf m -> mwf m' -> contracts nn na ra nb rb c data fa fb m -> contracts nn na ra nb rb c data fa' fb' m' -> m = m'.
Proof.
  move=> Ea Eb W W' [[S1 S2] P] [[S1' S2'] P'].
  case: m W S1 S2 P => mr1 mc1 d1 W /= S1 S2 P. case: m' W' S1' S2' P' => mr2 mc2 d2 W' /= S1' S2' P'.
  subst mr1 mc1 mr2 mc2. congr mkMat. apply: (List.nth_ext _ _ (0 : R) (0 : R)); first by rewrite W W'.
  rewrite W /= multE => p /ltP Hp.
  have Hrb : (0 < rb)%N by move: Hp; case: (rb) => //; rewrite !muln0.
  have Hra : (0 < ra)%N by move: Hp; case: (ra) => //; rewrite mul0n muln0.
  have E : p = (p %/ (ra * rb) * (ra * rb) + ((p %% (ra * rb)) %/ rb * rb + (p %% (ra * rb)) %% rb))%N.
    by rewrite -!divn_eq.
  have H1 : (p %/ (ra * rb) < nn)%N by rewrite ltn_divLR ?muln_gt0 ?Hra.
  have H2 : ((p %% (ra * rb)) %/ rb < ra)%N by rewrite ltn_divLR // ltn_mod muln_gt0 Hra.
  have H3 : ((p %% (ra * rb)) %% rb < rb)%N by rewrite ltn_mod.
  have Q d : mget (mkMat nn (ra * rb) d) (p %/ (ra * rb)) ((p %% (ra * rb)) %/ rb * rb + (p %% (ra * rb)) %% rb) = List.nth p d 0.
    by rewrite [in RHS]E /Tensor_model.mget.
  move: (P _ _ _ H1 H2 H3) (P' _ _ _ H1 H2 H3). rewrite !Q => -> ->.
  apply: eq_bigr => y _; apply: eq_bigr => z _. by rewrite Ea // Eb.
Qed.

(** Reversed columns. *)
Lemma reverse_ok n r (u : mat R) : shape n r u -> reversed n r u (reverse_cols 0 u).
Proof.
  move=> [Hn Hr]. rewrite /reverse_cols Hn Hr. split; first by [].
  by move=> i j Hi Hj; rewrite build_mget // !minusE -subnDA add1n.
Qed.
Lemma reverse_mwf (u : mat R) : mwf (reverse_cols 0 u).
Proof. exact: mwf_build. Qed.

Lemma rev_perm n r (u f : mat R) : reversed n r u f ->
  mx n r f = \matrix_(i, j) mx n r u i (rev_ord j).
Proof. by move=> [_ P]; apply/matrixP => i j; rewrite !mxE P. Qed.

Lemma reversed_orth n r (u f : mat R) : reversed n r u f -> (mx n r u)^T *m mx n r u = 1%:M ->
  orthonormal n r f.
Proof.
  move=> H O. rewrite /orthonormal (rev_perm H). apply/matrixP => i j. rewrite !mxE.
  have := congr1 (fun M : 'M[R]_r => M (rev_ord i) (rev_ord j)) O. rewrite /= !mxE (inj_eq rev_ord_inj) => <-.
  by apply: eq_bigr => y _; rewrite !mxE.
Qed.

(** Overlaid initial factors. *)
Lemma overlay_ok n r (f x : mat R) : shape n r f -> (mr x <= n)%N -> mc x = r ->
  exists2 g, overlay 0 f x = Ok g & shape n r g /\ forall i j, (i < n)%N -> (j < r)%N ->
    mget g i j = if (i < mr x)%N then mget x i j else mget f i j.
Proof.
  move=> [Hn Hr] L Hc. rewrite /overlay min_minn Hn Hr Hc (minn_idPl L) !eqb_eqn !eqxx /=.
  eexists; first by []. split; first by [].
  move=> i j Hi Hj. rewrite build_mget // ltb_ltn. case: ifP => // Hi'.
  have -> : (if mr x == 1%N then 0%N else i) = i by case: eqP => // E; move: Hi'; rewrite E; case: (i).
  have -> // : (if r == 1%N then 0%N else j) = j by case: eqP => // E; move: Hj; rewrite E; case: (j).
Qed.
End Bridge.
