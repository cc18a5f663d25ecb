(** One-pass decompositions (hosvd, hosvd_dense, tucker2_dense) and tucker2. *)
From Verif Require Import Prelude Tensor_model Tensor_spec Matrix_model Attention_model LinAlg_model Hooi_model.
From Verif Require Import Tensor_main Tensor_extra Tensor_proofs.
Set Warnings "-notation-overridden".
From mathcomp Require Import all_ssreflect all_algebra.
From Verif Require Import LinAlg_spec LinAlg_bridge Tucker_spec Tucker_bridge Hooi_spec Hooi_bridge Hooi_main Hooi_run Hooi_exact Hooi_final.
Set Implicit Arguments.
Unset Strict Implicit.
Unset Printing Implicit Defensive.
Import GRing.Theory.
Local Open Scope ring_scope.

Local Arguments set_factor : simpl never.
Local Arguments factor : simpl never.

Section Parts.
Variable R : comRingType.
Notation mget := (Tensor_model.mget (0 : R)).

Lemma reversed_rows_ok n r (vt : mat R) : shape r n vt ->
  reversed_rows n r vt (reverse_cols 0 (transpose 0 vt)).
Proof.
  move=> S. have [St _] := transpose_ok S. have [S1 P] := reverse_ok St. split=> // i j Hi Hj.
  rewrite P // /Attention_model.transpose (proj1 S) (proj2 S) build_mget //.
  by rewrite ltn_subrL /=; case: (r) Hj.
Qed.

Lemma reversed_rows_orth n r (vt f : mat R) : reversed_rows n r vt f ->
  mx r n vt *m (mx r n vt)^T = 1%:M -> orthonormal n r f.
Proof.
  move=> [_ P] O. apply/matrixP => i j. rewrite mxE.
  have := congr1 (fun M : 'M[R]_r => M (rev_ord i) (rev_ord j)) O. rewrite /= !mxE (inj_eq rev_ord_inj) => <-.
  by apply: eq_bigr => y _; rewrite !mxE !P.
Qed.

Lemma core_of_eq n0 r0 n1 r1 n2 r2 (d d' : cell -> R) (U : 'M_(n0, r0)) (V : 'M_(n1, r1)) (W : 'M_(n2, r2)) core :
  (forall c, in_range (n0, n1, n2) c -> d c = d' c) -> core_of d U V W core -> core_of d' U V W core.
Proof.
  move=> E [Wf S P]; split=> // a b c. rewrite P. apply: eq_bigr => i _; apply: eq_bigr => j _; apply: eq_bigr => k _.
  rewrite E //. exact: (conj (elimT ltP (ltn_ord i)) (conj (elimT ltP (ltn_ord j)) (elimT ltP (ltn_ord k)))).
Qed.

Lemma core_dense_ok n0 r0 n1 r1 n2 r2 (x : ten R) (u v w : mat R) :
  tshape x = (n0, n1, n2) -> shape n0 r0 u -> shape n1 r1 v -> shape n2 r2 w ->
  exists2 core, core_dense 0 +%R *%R x u v w = Ok core & core_of (tget 0 x) (mx n0 r0 u) (mx n1 r1 v) (mx n2 r2 w) core.
Proof.
  move=> S Hu Hv Hw. rewrite /core_dense. case E : (dense_to_sparse_tensor 0 x) => [inds vals].
  have := E; rewrite dense_to_sparse_cells => -[E1 E2].
  have LV : length vals = length inds by rewrite -E1 -E2 List.map_length.
  have FR : List.Forall (in_range (n0, n1, n2)) inds.
    by rewrite -E1 S; apply/List.Forall_forall => c; rewrite cells_In.
  have [core -> CO] := core_ok Hu Hv Hw LV FR. exists core => //. apply: core_of_eq CO => c Hc.
  rewrite -denseE. by apply: (dense_values_at (0 : R) 1 +%R *%R _ _ (RT R) x inds vals c E); rewrite S.
Qed.

Lemma combine_mapl (A B C : Type) (f : A -> B) (xs : list A) (ys : list C) :
  List.combine (List.map f xs) ys = [seq (f e.1, e.2) | e <- List.combine xs ys].
Proof. by elim: xs ys => [|x xs IH] [|y ys] //=; rewrite IH. Qed.

Lemma sparse_ok mode n a b nn na nb (inds : list cell) (vals : list R) sh : modes mode n a b ->
  axis sh n = nn -> axis sh a = na -> axis sh b = nb ->
  length vals = length inds -> List.Forall (in_range sh) inds ->
  exists2 x, unfold_sparse inds vals sh mode = Ok x
    & [/\ coo_r x = nn, coo_c x = (na * nb)%N
        & coo_entries x = [seq ((axis e.1 n, (axis e.1 a + na * axis e.1 b)%N), e.2) | e <- List.combine inds vals]].
Proof.
  move=> M En Ea Eb LV FR. have [I [_ P]] := unfold_sparse_main inds vals sh mode n a b M (esym LV).
  have [x Ex] : exists m, unfold_sparse inds vals sh mode = Ok m.
    apply: (proj2 I). apply: List.Forall_impl FR => c Hc. 
    have [Hn Ha Hb] : [/\ (axis c n < axis sh n)%N, (axis c a < axis sh a)%N & (axis c b < axis sh b)%N].
      by case: M Hc {En Ea Eb I P}; case: (c) => -[c0 c1] c2; case: (sh) => -[s0 s1] s2 [/ltP ? [/ltP ? /ltP ?]].
    split; first exact/ltP. apply/ltP. rewrite plusE !multE. exact: (ltn_ord (lohi (Ordinal Ha) (Ordinal Hb))).
  exists x => //. have [P1 [P2 P3]] := P x Ex. by rewrite P1 P2 P3 En Ea Eb combine_mapl.
Qed.
End Parts.

Section Dense.
Variable R : comRingType.
Variable qr : mat R -> res (mat R * mat R).
Variable rand : nat -> nat -> nat -> mat R.
Variable rsvd : nat -> mat R -> nat -> res (mat R * list R * mat R).
Hypothesis RIGHT : right_ok rsvd.
Notation hosvd_dense_mode := (Hooi_model.hosvd_dense_mode (0 : R) rsvd).

Lemma dense_mode_ok (x : ten R) rank mode n a b nn na nb r fs : modes mode n a b -> twf x ->
  axis (tshape x) n = nn -> axis (tshape x) a = na -> axis (tshape x) b = nb -> axis rank n = r ->
  mode = BinInt.Z.of_nat n ->
  let k := minn r (minn (na * nb) nn) in
  match hosvd_dense_mode x rank n fs with
  | Err e => exists t y q, rsvd t y q = Err e
  | Ok fs' => exists f, [/\ fs' = set_factor fs n f, unfolding_factor (fun y => rsvd n y r) n a nn na nb k (tget 0 x) f,
                            shape nn k f & orthonormal nn k f]
  end.
Proof.
  move=> M W En Ea Eb Er EM k. rewrite /Hooi_model.hosvd_dense_mode -EM.
  have [m -> [Sm Em]] := unfold_ok W M En Ea Eb. rewrite /= Er. have [St Et] := transpose_ok Sm.
  case E : (rsvd n _ r) => [[[u s] vt]|e] /=; last by eexists _, _, _; exact: E.
  have [Sv O] := RIGHT E. rewrite (proj1 St) (proj2 St) -/k in Sv O. have Rv := reversed_rows_ok Sv.
  eexists; split; first by []; last first.
  - exact: reversed_rows_orth Rv O.
  - by case: Rv.
  - exists (transpose 0 m), u, s, vt. by rewrite -Em.
Qed.

Lemma hosvd_dense_main n0 r0 n1 r1 n2 r2 (x : ten R) : twf x -> tshape x = (n0, n1, n2) ->
  let k0 := minn r0 (minn (n1 * n2) n0) in let k1 := minn r1 (minn (n0 * n2) n1) in
  let k2 := minn r2 (minn (n0 * n1) n2) in
  match hosvd_dense (0 : R) +%R *%R qr rand rsvd x (r0, r1, r2) with
  | Err e => (e = RuntimeError /\ ~ [/\ (r0 <= r1 * r2)%N, (r1 <= r0 * r2)%N & (r2 <= r0 * r1)%N])
             \/ exists t y q, rsvd t y q = Err e
  | Ok (fs, core) =>
    [/\ [/\ (r0 <= r1 * r2)%N, (r1 <= r0 * r2)%N & (r2 <= r0 * r1)%N],
        [/\ unfolding_factor (fun y => rsvd 0%N y r0) 0 1 n0 n1 n2 k0 (tget 0 x) (factor fs 0),
            unfolding_factor (fun y => rsvd 1%N y r1) 1 0 n1 n0 n2 k1 (tget 0 x) (factor fs 1)
          & unfolding_factor (fun y => rsvd 2%N y r2) 2 0 n2 n0 n1 k2 (tget 0 x) (factor fs 2)],
        core_of (tget 0 x) (mx n0 k0 (factor fs 0)) (mx n1 k1 (factor fs 1)) (mx n2 k2 (factor fs 2)) core
      & projection n0 k0 n1 k1 n2 k2 (tget 0 x) fs core]
  end.
Proof.
  move=> W S k0 k1 k2. rewrite /hosvd_dense /check_params. case V : (rank_is_valid _); last first.
    by left; split=> // /rank_validE; rewrite V.
  have {}V := elimT (rank_validE _ _ _) V. rewrite /=.
  have := dense_mode_ok (rank := (r0, r1, r2)) ((rand 0%N (axis (tshape x) 0) r0, rand 1%N (axis (tshape x) 1) r1, rand 2%N (axis (tshape x) 2) r2)) mode_0 W erefl erefl erefl erefl erefl.
  rewrite /=. case: (hosvd_dense_mode _ _ _ _) => [fs0|e] /=; last by right. move=> [f0 [-> U0 S0 O0]].
  have := dense_mode_ok (rank := (r0, r1, r2)) (set_factor (rand 0%N (axis (tshape x) 0) r0, rand 1%N (axis (tshape x) 1) r1, rand 2%N (axis (tshape x) 2) r2) 0 f0) mode_1 W erefl erefl erefl erefl erefl.
  rewrite /=. case: (hosvd_dense_mode _ _ _ _) => [fs1|e] /=; last by right. move=> [f1 [-> U1 S1 O1]].
  have := dense_mode_ok (rank := (r0, r1, r2)) (set_factor (set_factor (rand 0%N (axis (tshape x) 0) r0, rand 1%N (axis (tshape x) 1) r1, rand 2%N (axis (tshape x) 2) r2) 0 f0) 1 f1) mode_2 W erefl erefl erefl erefl erefl.
  rewrite /=. case: (hosvd_dense_mode _ _ _ _) => [fs2|e] /=; last by right. move=> [f2 [-> U2 S2 O2]].
  rewrite S /= in U0 S0 O0 U1 S1 O1 U2 S2 O2. rewrite /set_factor /= /factor /=.
  have [core -> CO] := core_dense_ok S S0 S1 S2. rewrite /=. split=> //.
  exact: projection_of.
Qed.

(** tucker2_dense. *)
Variable svd_full : mat R -> res (mat R * list R * mat R).
Hypothesis FULL : svd_full_ok svd_full.
Notation tucker2_dense_mode := (Hooi_model.tucker2_dense_mode (0 : R) rsvd svd_full).

Lemma tucker2_dense_mode_ok (x : ten R) rank im mode n a b nn na nb r fs : modes mode n a b -> twf x ->
  axis (tshape x) n = nn -> axis (tshape x) a = na -> axis (tshape x) b = nb -> axis rank n = r ->
  mode = BinInt.Z.of_nat n -> (n == im) = false ->
  let valid := rank_is_valid rank in
  let k := if valid then minn r (minn (na * nb) nn) else nn in
  match tucker2_dense_mode x rank im n fs with
  | Err e => (exists t y q, rsvd t y q = Err e) \/ exists y, svd_full y = Err e
  | Ok fs' => exists f, [/\ fs' = set_factor fs n f,
                            unfolding_factor (fun y => if valid then rsvd n y r else svd_full y) n a nn na nb k (tget 0 x) f,
                            shape nn k f & orthonormal nn k f]
  end.
Proof.
  move=> M W En Ea Eb Er EM NE valid k. rewrite /Hooi_model.tucker2_dense_mode eqb_eqn NE -EM.
  have [m -> [Sm Em]] := unfold_ok W M En Ea Eb. rewrite /= Er. have [St Et] := transpose_ok Sm.
  case E : (if rank_is_valid rank then _ else _) => [[[u s] vt]|e] /=; last first.
    by move: E; case: ifP => _ E; [left; eexists _, _, _; exact: E|right; eexists; exact: E].
  have [Sv O] : shape k nn vt /\ mx k nn vt *m (mx k nn vt)^T = 1%:M.
    move: E; rewrite /k /valid. case: ifP => _ E.
      by have [Sv O] := RIGHT E; rewrite (proj1 St) (proj2 St) in Sv O.
    by have [Sv O] := FULL E; rewrite (proj2 St) in Sv O.
  have Rv := reversed_rows_ok Sv.
  eexists; split; first by []; last first.
  - exact: reversed_rows_orth Rv O.
  - by case: Rv.
  - exists (transpose 0 m), u, s, vt. by rewrite -Em.
Qed.

Lemma tucker2_dense_main n0 r0 n1 r1 n2 r2 (x : ten R) im : twf x -> tshape x = (n0, n1, n2) -> (im < 3)%N ->
  axis (r0, r1, r2) im = axis (n0, n1, n2) im ->
  let valid := rank_is_valid (r0, r1, r2) in
  let k0 := if im == 0%N then n0 else if valid then minn r0 (minn (n1 * n2) n0) else n0 in
  let k1 := if im == 1%N then n1 else if valid then minn r1 (minn (n0 * n2) n1) else n1 in
  let k2 := if im == 2%N then n2 else if valid then minn r2 (minn (n0 * n1) n2) else n2 in
  let svd mode r y := if valid then rsvd mode y r else svd_full y in
  match tucker2_dense (0 : R) 1 +%R *%R qr rand rsvd svd_full x (r0, r1, r2) im with
  | Err e => (exists t y q, rsvd t y q = Err e) \/ exists y, svd_full y = Err e
  | Ok (fa, fb, core) => exists u v w,
    [/\ (fa, fb) = (if im is 0 then (v, w) else if im is 1 then (u, w) else (u, v)),
        [/\ if im == 0%N then mx n0 n0 u = 1%:M else unfolding_factor (svd 0%N r0) 0 1 n0 n1 n2 k0 (tget 0 x) u,
            if im == 1%N then mx n1 n1 v = 1%:M else unfolding_factor (svd 1%N r1) 1 0 n1 n0 n2 k1 (tget 0 x) v
          & if im == 2%N then mx n2 n2 w = 1%:M else unfolding_factor (svd 2%N r2) 2 0 n2 n0 n1 k2 (tget 0 x) w],
        core_of (tget 0 x) (mx n0 k0 u) (mx n1 k1 v) (mx n2 k2 w) core,
        projection n0 k0 n1 k1 n2 k2 (tget 0 x) (u, v, w) core
      & ~~ valid -> forall c, in_range (n0, n1, n2) c -> rep u v w core c = tget 0 x c]
  end.
Proof.
  move=> W S IM EI valid k0 k1 k2 svd. rewrite /tucker2_dense /=. set fs := (rand _ _ _, _, _).
  have -> : PeanoNat.Nat.ltb 2 im = false by case: im IM {EI k0 k1 k2} => [|[|[|]]].
  set fs0 := set_factor fs im _.
  have H0 : match tucker2_dense_mode x (r0, r1, r2) im 0 fs0 with
    | Err e => (exists t y q, rsvd t y q = Err e) \/ exists y, svd_full y = Err e
    | Ok fs' => exists f, [/\ fs' = set_factor fs0 0 f, if im == 0%N then mx n0 n0 f = 1%:M else unfolding_factor (svd 0%N r0) 0 1 n0 n1 n2 k0 (tget 0 x) f,
                            shape n0 k0 f & orthonormal n0 k0 f] end.
    rewrite /k0. have [E|NE] := eqVneq im 0%N.
      rewrite /Hooi_model.tucker2_dense_mode E /=. exists (eye 0 1 n0). have [Se Ee] := eye_ok R n0.
      have EI' : r0 = n0 by move: EI; rewrite E.
      split=> //; first by rewrite /fs0 E /set_factor /= EI'. by rewrite /orthonormal Ee trmx1 mul1mx.
    have := tucker2_dense_mode_ok (im := im) (rank := (r0, r1, r2)) fs0 mode_0 W erefl erefl erefl erefl erefl (etrans (eq_sym _ _) (negbTE NE)).
    by rewrite S /= -/valid; case: (tucker2_dense_mode _ _ _ _ _).
  rewrite /=. case: (tucker2_dense_mode _ _ _ _ _) H0 => [fs1|e] //= [u [-> Uu Su Ou]].
  set fs1' := set_factor fs0 0 u.
  have H1 : match tucker2_dense_mode x (r0, r1, r2) im 1 fs1' with
    | Err e => (exists t y q, rsvd t y q = Err e) \/ exists y, svd_full y = Err e
    | Ok fs' => exists f, [/\ fs' = set_factor fs1' 1 f, if im == 1%N then mx n1 n1 f = 1%:M else unfolding_factor (svd 1%N r1) 1 0 n1 n0 n2 k1 (tget 0 x) f,
                            shape n1 k1 f & orthonormal n1 k1 f] end.
    rewrite /k1. have [E|NE] := eqVneq im 1%N.
      rewrite /Hooi_model.tucker2_dense_mode E /=. exists (eye 0 1 n1). have [Se Ee] := eye_ok R n1.
      have EI' : r1 = n1 by move: EI; rewrite E.
      split=> //; first by rewrite /fs1' /fs0 E /set_factor /= EI'. by rewrite /orthonormal Ee trmx1 mul1mx.
    have := tucker2_dense_mode_ok (im := im) (rank := (r0, r1, r2)) fs1' mode_1 W erefl erefl erefl erefl erefl (etrans (eq_sym _ _) (negbTE NE)).
    by rewrite S /= -/valid; case: (tucker2_dense_mode _ _ _ _ _).
  rewrite /=. case: (tucker2_dense_mode _ _ _ _ _) H1 => [fs2|e] //= [v [-> Uv Sv Ov]].
  set fs2' := set_factor fs1' 1 v.
  have H2 : match tucker2_dense_mode x (r0, r1, r2) im 2 fs2' with
    | Err e => (exists t y q, rsvd t y q = Err e) \/ exists y, svd_full y = Err e
    | Ok fs' => exists f, [/\ fs' = set_factor fs2' 2 f, if im == 2%N then mx n2 n2 f = 1%:M else unfolding_factor (svd 2%N r2) 2 0 n2 n0 n1 k2 (tget 0 x) f,
                            shape n2 k2 f & orthonormal n2 k2 f] end.
    rewrite /k2. have [E|NE] := eqVneq im 2%N.
      rewrite /Hooi_model.tucker2_dense_mode E /=. exists (eye 0 1 n2). have [Se Ee] := eye_ok R n2.
      have EI' : r2 = n2 by move: EI; rewrite E.
      split=> //; first by rewrite /fs2' /fs1' /fs0 E /set_factor /= EI'. by rewrite /orthonormal Ee trmx1 mul1mx.
    have := tucker2_dense_mode_ok (im := im) (rank := (r0, r1, r2)) fs2' mode_2 W erefl erefl erefl erefl erefl (etrans (eq_sym _ _) (negbTE NE)).
    by rewrite S /= -/valid; case: (tucker2_dense_mode _ _ _ _ _).
  rewrite /=. case: (tucker2_dense_mode _ _ _ _ _) H2 => [fs3|e] //= [w [-> Uw Sw Ow]].
  have -> : set_factor fs2' 2 w = (u, v, w) by case: (fs0) @fs1' @fs2' => -[].
  rewrite /factor /=. have [core -> CO] := core_dense_ok S Su Sv Sw. rewrite /=.
  have P := projection_of Su Sv Sw Ou Ov Ow CO.
  have X : ~~ valid -> forall c, in_range (n0, n1, n2) c -> rep u v w core c = tget 0 x c.
    move=> NV. have [_ _ PE _] := P. apply/PE. rewrite /factor /=.
    have K0 : k0 = n0 by rewrite /k0 (negbTE NV) if_same. have K1 : k1 = n1 by rewrite /k1 (negbTE NV) if_same.
    have K2 : k2 = n2 by rewrite /k2 (negbTE NV) if_same.
    move: Ou Ov Ow; rewrite /orthonormal K0 K1 K2 => /mulmx1C -> /mulmx1C -> /mulmx1C ->.
    by rewrite !mul1mx.
  case Eo : (others im) => [a b] /=. exists u, v, w. split=> //.
  by move: IM Eo; clear; case: im => [|[|[|]]] //= _ [<- <-].
Qed.
End Dense.

Section Sparse.
Variable R : comRingType.
Variable qr : mat R -> res (mat R * mat R).
Variable rand : nat -> nat -> nat -> mat R.
Variable svds_u : @coo R -> nat -> res (mat R).
Hypothesis SVDS : svds_ok svds_u.

Lemma sparse_mode_ok inds (vals : list R) sh rank mode n a b nn na nb r fs : modes mode n a b ->
  axis sh n = nn -> axis sh a = na -> axis sh b = nb -> axis rank n = r -> mode = BinInt.Z.of_nat n ->
  length vals = length inds -> List.Forall (in_range sh) inds ->
  match hosvd_mode (0 : R) svds_u inds vals sh rank n fs with
  | Err e => exists y q, svds_u y q = Err e
  | Ok fs' => exists f, [/\ fs' = set_factor fs n f, sparse_factor svds_u n a b nn na nb r (List.combine inds vals) f,
                            shape nn r f & orthonormal nn r f]
  end.
Proof.
  move=> M En Ea Eb Er EM LV FR. rewrite /hosvd_mode -EM.
  have [x -> [X1 X2 X3]] := sparse_ok M En Ea Eb LV FR. rewrite /= Er.
  case E : (svds_u x r) => [u|e] /=; last by eexists _, _; exact: E.
  have [Su O] := SVDS E. rewrite X1 in Su O. have Rv := reverse_ok Su.
  eexists; split; first by []; last first.
  - exact: reversed_orth Rv O.
  - by case: Rv.
  - by exists x, u.
Qed.

Lemma hosvd_main n0 r0 n1 r1 n2 r2 inds (vals : list R) :
  length vals = length inds -> List.Forall (in_range (n0, n1, n2)) inds ->
  match hosvd (0 : R) +%R *%R qr rand svds_u inds vals (n0, n1, n2) (r0, r1, r2) with
  | Err e => (e = RuntimeError /\ ~ [/\ (r0 <= r1 * r2)%N, (r1 <= r0 * r2)%N & (r2 <= r0 * r1)%N])
             \/ exists y q, svds_u y q = Err e
  | Ok (fs, core) =>
    [/\ [/\ (r0 <= r1 * r2)%N, (r1 <= r0 * r2)%N & (r2 <= r0 * r1)%N],
        [/\ sparse_factor svds_u 0 1 2 n0 n1 n2 r0 (List.combine inds vals) (factor fs 0),
            sparse_factor svds_u 1 0 2 n1 n0 n2 r1 (List.combine inds vals) (factor fs 1)
          & sparse_factor svds_u 2 0 1 n2 n0 n1 r2 (List.combine inds vals) (factor fs 2)],
        core_of (dense (List.combine inds vals)) (mx n0 r0 (factor fs 0)) (mx n1 r1 (factor fs 1)) (mx n2 r2 (factor fs 2)) core
      & projection n0 r0 n1 r1 n2 r2 (dense (List.combine inds vals)) fs core]
  end.
Proof.
  move=> LV FR. rewrite /hosvd /check_params. case V : (rank_is_valid _); last first.
    by left; split=> // /rank_validE; rewrite V.
  have {}V := elimT (rank_validE _ _ _) V. rewrite /=. set fs := (rand _ _ _, _, _).
  have := sparse_mode_ok (rank := (r0, r1, r2)) (sh := (n0, n1, n2)) fs mode_0 erefl erefl erefl erefl erefl LV FR.
  rewrite /=. case: (hosvd_mode _ _ _ _ _ _ _ _) => [fs0|e] /=; last by right. move=> [f0 [-> U0 S0 O0]].
  have := sparse_mode_ok (rank := (r0, r1, r2)) (sh := (n0, n1, n2)) (set_factor fs 0 f0) mode_1 erefl erefl erefl erefl erefl LV FR.
  rewrite /=. case: (hosvd_mode _ _ _ _ _ _ _ _) => [fs1|e] /=; last by right. move=> [f1 [-> U1 S1 O1]].
  have := sparse_mode_ok (rank := (r0, r1, r2)) (sh := (n0, n1, n2)) (set_factor (set_factor fs 0 f0) 1 f1) mode_2 erefl erefl erefl erefl erefl LV FR.
  rewrite /=. case: (hosvd_mode _ _ _ _ _ _ _ _) => [fs2|e] /=; last by right. move=> [f2 [-> U2 S2 O2]].
  rewrite /set_factor /= /factor /=.
  have [core -> CO] := core_ok S0 S1 S2 LV FR. rewrite /=. split=> //.
  exact: projection_of.
Qed.
End Sparse.

Lemma tucker2_dense_bool_main (R : comRingType) (qr : mat R -> res (mat R * mat R)) rand
    (rsvd : nat -> mat R -> nat -> res (mat R * list R * mat R)) svd_full :
  right_ok rsvd -> svd_full_ok svd_full ->
  forall n0 r0 n1 r1 n2 r2 (x : ten R) im, twf x -> tshape x = (n0, n1, n2) -> (im < 3)%N ->
  axis (r0, r1, r2) im = axis (n0, n1, n2) im ->
  let valid := [&& (r0 <= r1 * r2)%N, (r1 <= r0 * r2)%N & (r2 <= r0 * r1)%N] in
  let k0 := if im == 0%N then n0 else if valid then minn r0 (minn (n1 * n2) n0) else n0 in
  let k1 := if im == 1%N then n1 else if valid then minn r1 (minn (n0 * n2) n1) else n1 in
  let k2 := if im == 2%N then n2 else if valid then minn r2 (minn (n0 * n1) n2) else n2 in
  let svd mode r y := if valid then rsvd mode y r else svd_full y in
  match tucker2_dense (0 : R) 1 +%R *%R qr rand rsvd svd_full x (r0, r1, r2) im with
  | Err e => (exists t y q, rsvd t y q = Err e) \/ exists y, svd_full y = Err e
  | Ok (fa, fb, core) => exists u v w,
    [/\ (fa, fb) = (if im is 0 then (v, w) else if im is 1 then (u, w) else (u, v)),
        [/\ if im == 0%N then mx n0 n0 u = 1%:M else unfolding_factor (svd 0%N r0) 0 1 n0 n1 n2 k0 (tget 0 x) u,
            if im == 1%N then mx n1 n1 v = 1%:M else unfolding_factor (svd 1%N r1) 1 0 n1 n0 n2 k1 (tget 0 x) v
          & if im == 2%N then mx n2 n2 w = 1%:M else unfolding_factor (svd 2%N r2) 2 0 n2 n0 n1 k2 (tget 0 x) w],
        core_of (tget 0 x) (mx n0 k0 u) (mx n1 k1 v) (mx n2 k2 w) core,
        projection n0 k0 n1 k1 n2 k2 (tget 0 x) (u, v, w) core
      & ~~ valid -> forall c, in_range (n0, n1, n2) c -> rep u v w core c = tget 0 x c]
  end.
Proof.
  move=> RIGHT FULL n0 r0 n1 r1 n2 r2 x im W S IM EI.
  have := tucker2_dense_main qr rand RIGHT FULL W S IM EI.
  have -> // : rank_is_valid (r0, r1, r2) = [&& (r0 <= r1 * r2)%N, (r1 <= r0 * r2)%N & (r2 <= r0 * r1)%N].
  by apply/rank_validE/and3P.
Qed.
