(** One step of an update with factors: outcome, shapes and orthonormality. *)
From Coq Require Import ZArith.
From Verif Require Import Prelude Prelude_proofs DataPrep_model History_model Psi_model Tirec_model Tirec_spec
  Tensor_model Tensor_spec Tensor_main Matrix_model Attention_model LinAlg_model Tucker_model Hooi_model Upd_model Nti_model Nti_book.
From Verif Require Tirec_proofs.
Set Warnings "-notation-overridden".
From mathcomp Require Import all_ssreflect all_algebra.
From Verif Require Import LinAlg_spec LinAlg_bridge LinAlg_emb Tucker_spec Tucker_bridge Tucker_main Tucker_emb Tucker_integ Hooi_spec Hooi_bridge
  Upd_spec Upd_block Upd_new Exact_spec Exact_main Nti_spec.
Set Implicit Arguments.
Unset Strict Implicit.
Unset Printing Implicit Defensive.
Import GRing.Theory.
Local Open Scope ring_scope.

Notation cell_range := Tensor_spec.in_range.

Section Data.
Variable R : comRingType.
Variable of_val : Z -> R.

Definition ents (d : list entry) : list (cell * R) := [seq (zc e, of_val e.2) | e <- d].

Lemma nat_coords_ok n0 n1 n2 d : (forall e, List.In e d -> in_box n0 n1 n2 e) ->
  [/\ nat_coords d = Ok (map zc d), List.Forall (cell_range (n0, n1, n2)) (map zc d)
    & length (values of_val d) = length (map zc d)].
Proof. move=> /nat_coords_map [H1 H2]. split=> //. by rewrite /values !List.map_length. Qed.

Lemma combine_ents d : List.combine (map zc d) (values of_val d) = ents d.
Proof. by elim: d => //= e d ->. Qed.

(** The entries with the attention applied to the third mode. *)
Definition attended (L : nat) (att : option (mat R)) (es : list (cell * R)) (c : cell) : R :=
  if att is Some a then \sum_(l < L) dense es (c0 c, c1 c, l : nat) * mget 0 a l (c2 c) else dense es c.

Lemma coo_array_mx m n (x : @coo R) : coo_r x = m -> coo_c x = n -> mx m n (coo_array 0 +%R x) = coo_mx m n x.
Proof.
  move=> <- <-. rewrite /coo_array mx_build. apply/matrixP => i j. rewrite !mxE.
  elim: (coo_entries x) => [|e l IH] /=; first by rewrite big_nil.
  rewrite big_cons !eqb_eqn. case: ifP => _ //=. by rewrite IH.
Qed.

Lemma new_vectors_mx mode n a b s0 s1 L att d :
  modes mode n a b -> (n < 2)%N -> att_shape L att -> (forall e, List.In e d -> in_box s0 s1 L e) ->
  let sh := (s0, s1, L) in
  exists2 da, new_vectors 0 +%R *%R of_val att d sh n = Ok da
    & shape (axis sh n) (axis sh a * axis sh b) da /\
      mx (axis sh n) (axis sh a * axis sh b) da = unf n a (axis sh n) (axis sh a) (axis sh b) (attended L att (ents d)).
Proof.
  move=> M Hn Ha H sh. have [E FR LV] := nat_coords_ok H. rewrite /new_vectors E /=.
  have Em : Z.of_nat n = mode by case: M Hn.
  rewrite Em. case: att Ha => [at_|] Ha.
  - have := tensordot_ok (m0 := s0) (m1 := s1) (Ha : shape L L at_) LV FR.
    case=> x -> [Wx Sx XE]. rewrite /=.
    have [da -> [Hda Eda]] := unfold_ok Wx M (erefl (axis (tshape x) n)) erefl erefl.
    rewrite Sx -/sh in Hda Eda *. exists da => //. split=> //. rewrite Eda. apply/matrixP => i y. rewrite !mxE.
    have RG : cell_range sh (place n a i (lo y) (hi y)) by apply/(place_range _ _ _ _ M).
    move: RG. case: (place _ _ _ _ _) => [[x0 y0] z0] [/= /leP H0 [/leP H1 /leP H2]].
    by rewrite XE // combine_ents.
  - have LV' : length (map zc d) = length (values of_val d) by rewrite LV.
    have [[_ OK] [_ P]] := unfold_sparse_main (map zc d) (values of_val d) sh mode n a b M LV'.
    case: OK.
      apply: List.Forall_impl FR => c Hc. rewrite -(pick_place c M) in Hc.
      have [H1 H2 H3] := proj1 (place_range _ _ _ _ M) Hc.
      split; first exact/ltP. apply/ltP. rewrite !plusE !multE.
      have := H3. rewrite -(leq_pmul2l (m := axis sh a)); last by apply: leq_ltn_trans H2.
      rewrite mulnS. apply: leq_trans. by rewrite ltn_add2r.
    move=> x Ex. rewrite Ex /=. exists (coo_array 0 +%R x) => //.
    have [E1 [E2 E3]] := P x Ex.
    rewrite multE in E2. split; first by rewrite /coo_array -E1 -E2; exact: shape_build.
    rewrite (coo_array_mx E1 E2). change (attended L None (ents d)) with (dense (ents d)).
    apply: (@coo_unf R mode n a b _ _ _ (ents d) x M).
      rewrite -combine_ents. exact: (all_range _ M FR).
    rewrite E3 -combine_ents. elim: (map zc d) (values of_val d) => [|c l IH] [|y ys] //=. by rewrite IH plusE multE.
Qed.
End Data.

Section Steps.
Variable R : comRingType.
Variable of_val : Z -> R.
Variables exceeds_eps is_one : R -> bool.
Hypothesis IS1 : forall y, is_one y = true -> y = 1.
Notation nti_by_mode := (nti_by_mode (0 : R) 1 +%R *%R (fun x y => x - y) of_val exceeds_eps is_one).
Notation add_vectors := (add_vectors (0 : R) 1 +%R *%R (fun x y => x - y) exceeds_eps).
Notation add_all := (add_all (0 : R) 1 +%R *%R (fun x y => x - y) exceeds_eps).

Definition em_mode (em : emb_mode) : nat := match em with EUsers => 0 | EItems => 1 end.
Definition em_u (em : emb_mode) (c : nat) : nat := match em with EUsers => c | EItems => 0 end.
Definition em_i (em : emb_mode) (c : nat) : nat := match em with EUsers => 0 | EItems => c end.

Lemma tucker_at r0 r1 r2 n0 n1 n2 (fs : @factors R) core : tucker_ok r0 r1 r2 n0 n1 n2 fs core ->
  factors_at 0 1 2 n0 r0 n1 r1 n2 r2 fs core /\ factors_at 1 0 2 n1 r1 n0 r0 n2 r2 fs core.
Proof. by move=> [[H0 H1 H2] _ W S _]; split; split=> //; rewrite S. Qed.

Lemma zero_rows_orthonormal n c r (f : mat R) : shape n r f -> orthonormal n r f ->
  exists2 x, zero_rows (0 : R) f c = Ok x & shape (n + c) r x /\ orthonormal (n + c) r x.
Proof.
  move=> Hf O. have [x E [Hx S]] := zero_rows_ok c Hf. exists x => //. split=> //.
  rewrite /orthonormal. have -> : mx (n + c) r x = col_mx (mx n r f) 0.
    apply/matrixP => i j. rewrite !mxE S //. case: splitP => k ->; rewrite ?mxE ?ltn_ord //.
    by rewrite zeros_get // ltn_add2l.
  by rewrite tr_col_mx mul_row_col mulmx0 addr0.
Qed.

Lemma tucker_grow em c r0 r1 r2 n0 n1 n2 (u v w u2 v2 : mat R) core core2 :
  tucker_ok r0 r1 r2 n0 n1 n2 (u, v, w) core ->
  (match em with
   | EUsers => [/\ shape (n0 + c) r0 u2, v2 = v & orthonormal (n0 + c) r0 u2]
   | EItems => [/\ u2 = u, shape (n1 + c) r1 v2 & orthonormal (n1 + c) r1 v2] end) ->
  twf core2 -> tshape core2 = (r0, r1, r2) ->
  tucker_ok r0 r1 r2 (n0 + em_u em c) (n1 + em_i em c) n2 (u2, v2, w) core2.
Proof.
  move=> [[H0 H1 H2] [O0 O1 O2] W S [V0 V1 V2 [P0 P1 P2] [N0 N1 N2]]]. rewrite /factor /= in H0 H1 H2 O0 O1 O2.
  case: em => -[A1 A2 A3] W2 S2; rewrite /em_u /em_i ?addn0 ?A1 ?A2.
  - split=> //. by split=> //; split=> //; apply: leq_trans N0 (leq_addr _ _).
  - split=> //. by split=> //; split=> //; apply: leq_trans N1 (leq_addr _ _).
Qed.

Lemma add_vectors_ok cfg rt em c (da : mat R) r0 r1 r2 n0 n1 n2 fs core :
  rt_ok rt -> tucker_ok r0 r1 r2 n0 n1 n2 fs core ->
  let na := match em with EUsers => n1 | EItems => n0 end in
  mr da = c -> (nc_variant cfg = VTIRec -> shape c (na * n2) da) ->
  match add_vectors cfg rt em da fs core with
  | Ok (fs', core') => (nc_variant cfg = VTIRec -> (c <= na * n2)%N) /\
      tucker_ok r0 r1 r2 (n0 + em_u em c) (n1 + em_i em c) n2 fs' core'
  | Err e => (nc_variant cfg = VTIRec /\ (na * n2 < c)%N) \/ rt_raises rt e
  end.
Proof.
  move=> [QR SV [T1 T2] [R3 T4] [FULL RN]] TK na Ec Hda. have [FA0 FA1] := tucker_at TK.
  have [[H0 H1 H2] [O0 O1 O2] W S [V0 V1 V2 [P0 P1 P2] [N0 N1 N2]]] := TK.
  have L0 : (r0 <= n1 * n2)%N by apply: leq_trans V0 _; apply: leq_mul.
  have L1 : (r1 <= n0 * n2)%N by apply: leq_trans V1 _; apply: leq_mul.
  have grow_ok : forall v', v' <> VTIRec ->
    match (let '(u, v, w) := fs in
      if nc_random cfg then
        bind (tucker_add_random 0 +%R *%R (rt_qr rt) (rt_normal rt) em (mr da) u v core)
          (fun '(u', v', core') => Ok ((u', v', w), core'))
      else bind (tucker_add_zero 0 em (mr da) u v) (fun '(u', v') => Ok ((u', v', w), core))) with
    | Ok (fs', core') => (v' = VTIRec -> (c <= na * n2)%N) /\
        tucker_ok r0 r1 r2 (n0 + em_u em c) (n1 + em_i em c) n2 fs' core'
    | Err e => (v' = VTIRec /\ (na * n2 < c)%N) \/ rt_raises rt e
    end.
    move=> v' NV. case: fs TK H0 H1 H2 O0 O1 O2 {FA0 FA1} => [[u v] w] TK; rewrite /factor /= => H0 H1 H2 O0 O1 O2. rewrite Ec.
    case: (nc_random cfg).
    - have := tucker_random_main QR RN c H0 H1 H2 W S em N0 N1.
      case: tucker_add_random => [[[u' v''] core']|e] /=.
      + move=> [W2 S2 H]. split=> //. apply: (tucker_grow TK) => //. by case: em @na Hda H => na Hda [].
      + move=> H. right. by left.
    - case: em @na Hda => na Hda; rewrite /tucker_add_zero.
      + have [x -> [Hx Ox]] := zero_rows_orthonormal c H0 O0. cbn [bind]. split=> //.
        exact: (tucker_grow (em := EUsers) TK).
      + have [x -> [Hx Ox]] := zero_rows_orthonormal c H1 O1. cbn [bind]. split=> //.
        exact: (tucker_grow (em := EItems) TK).
  rewrite /Nti_model.add_vectors. case Ev : (nc_variant cfg).
  - have {}Hda := Hda Ev. case: em @na Ec Hda {grow_ok} => na Ec Hda; rewrite /em_u /em_i ?addn0.
    + case: (leqP c (na * n2)) => HC.
      * have := new_vectors_main exceeds_eps QR SV T1 T2 (nc_explicit cfg) mode_0 FA0 Hda P0 L0 HC O1 O2. cbv zeta iota.
        case: update_tucker_new_vectors => [[fs' core']|e].
        -- move=> [[F0 _ _ WC _] [F1 F2] SC ON _]. split=> //.
           split; [by rewrite F1 F2 | by rewrite F1 F2; split=> //; exact: ON | by [] | by rewrite SC |].
           by split=> //; split=> //; apply: leq_trans N0 (leq_addr _ _).
        -- move=> H. right. rewrite /rt_raises. tauto.
      * have [e ->] := new_vectors_too_many_main exceeds_eps QR SV T1 T2 (nc_explicit cfg) mode_0 FA0 Hda L0 HC.
        by left.
    + case: (leqP c (na * n2)) => HC.
      * have := new_vectors_main exceeds_eps QR SV T1 T2 (nc_explicit cfg) mode_1 FA1 Hda P1 L1 HC O0 O2. cbv zeta iota.
        case: update_tucker_new_vectors => [[fs' core']|e].
        -- move=> [[F0 _ _ WC _] [F1 F2] SC ON _]. split=> //.
           split; [by rewrite F1 F2 | by rewrite F1 F2; split=> //; exact: ON | by [] | by rewrite SC |].
           by split=> //; split=> //; apply: leq_trans N1 (leq_addr _ _).
        -- move=> H. right. rewrite /rt_raises. tauto.
      * have [e ->] := new_vectors_too_many_main exceeds_eps QR SV T1 T2 (nc_explicit cfg) mode_1 FA1 Hda L1 HC.
        by left.
  - exact: grow_ok.
  - exact: grow_ok.
Qed.

(** The object after a step that changed the factors. *)
Definition put (x : @nti_state R) (r : res (@factors R * ten R)) : res nti_state :=
  bind r (fun '(fs', core') => Ok (set_factors x fs' core')).

Definition old_factors (q : mat R * mat R * mat R * ten R) : @factors R * ten R :=
  let '(u, v, w, c) := q in ((u, v, w), c).

Section OneStep.
Variables (cfg : nti_cfg) (L : nat) (att : option (mat R)) (rt : routines R) (x : @nti_state R).
Variables (d loc : list entry) (n0 n1 : nat).
Hypotheses (NE : d <> nil) (E0 : n_rows x 0 = n0) (E1 : n_rows x 1 = n1) (Ha : att_shape L att).

Lemma nonempty (X Y : res (@nti_state R)) : match d with nil => X | _ :: _ => Y end = Y.
Proof. by case: d NE. Qed.

Lemma step_new_users :
  (forall e, List.In e d -> Tirec_proofs.in_range MNewUsers L (Z.of_nat n0) (Z.of_nat n1) e) ->
  localize MNewUsers d = Ok loc -> List.Forall2 (is_local MNewUsers d) d loc ->
  let c := length (np_unique (map e_user d)) in
  exists2 da, nti_by_mode cfg L att rt x d MNewUsers = put x (add_vectors cfg rt EUsers da (nt_fs x) (nt_core x))
    & shape c (n1 * L) da /\ mx c (n1 * L) da = unf 0 1 c n1 L (attended L att (ents of_val loc)).
Proof.
  move=> HR EL FL c. have B := localize_range _ _ _ _ _ _ HR FL.
  have [da Eda [Sda Mda]] := new_vectors_mx of_val (s0 := c) (s1 := n1) mode_0 isT Ha (B : forall e, List.In e loc -> in_box c n1 L e).
  exists da => //. rewrite /put /Nti_model.nti_by_mode. rewrite nonempty. rewrite /localize in EL.
  by rewrite EL [bind (Ok loc) _]/= E1 Eda.
Qed.

Lemma step_new_items :
  (forall e, List.In e d -> Tirec_proofs.in_range MNewItems L (Z.of_nat n0) (Z.of_nat n1) e) ->
  localize MNewItems d = Ok loc -> List.Forall2 (is_local MNewItems d) d loc ->
  let c := length (np_unique (map e_item d)) in
  exists2 da, nti_by_mode cfg L att rt x d MNewItems = put x (add_vectors cfg rt EItems da (nt_fs x) (nt_core x))
    & shape c (n0 * L) da /\ mx c (n0 * L) da = unf 1 0 c n0 L (attended L att (ents of_val loc)).
Proof.
  move=> HR EL FL c. have B := localize_range _ _ _ _ _ _ HR FL.
  have [da Eda [Sda Mda]] := new_vectors_mx of_val (s0 := n0) (s1 := c) mode_1 isT Ha (B : forall e, List.In e loc -> in_box n0 c L e).
  exists da => //. rewrite /put /Nti_model.nti_by_mode. rewrite nonempty. rewrite /localize in EL.
  by rewrite EL [bind (Ok loc) _]/= E0 Eda.
Qed.

Lemma step_old :
  (forall e, List.In e d -> Tirec_proofs.in_range MOld L (Z.of_nat n0) (Z.of_nat n1) e) ->
  let fs := nt_fs x in
  [/\ nti_by_mode cfg L att rt x d MOld
      = put x (bind (tucker_integrator 0 +%R *%R (fun y z => y - z) (rt_qr rt) is_one (factor fs 0) (factor fs 1) (factor fs 2)
                       (nt_core x) (map zc d) (values of_val d) (n0, n1, L) att) (fun q => Ok (old_factors q))),
      map zc d <> nil, length (values of_val d) = length (map zc d)
    & List.Forall (cell_range (n0, n1, L)) (map zc d)].
Proof.
  move=> HR fs. have B : forall e, List.In e d -> in_box n0 n1 L e.
    by move=> e He; have [? [? ?]] := HR e He.
  have [Ed FR LV] := nat_coords_ok of_val B. split=> //; last by case: d NE.
  rewrite /put /Nti_model.nti_by_mode nonempty Ed E0 E1.
  rewrite [bind (Ok (map _ _)) _]/=. by case: tucker_integrator => [[[[u v] w] c]|e].
Qed.

Lemma step_new :
  (forall e, List.In e d -> Tirec_proofs.in_range MNew L (Z.of_nat n0) (Z.of_nat n1) e) ->
  localize MNew d = Ok loc -> List.Forall2 (is_local MNew d) d loc ->
  let c := length (np_unique (map e_user d)) in let m := length (np_unique (map e_item d)) in
  [/\ nti_by_mode cfg L att rt x d MNew
      = put x (update_tucker_new_matrix 0 1 +%R *%R (rt_qr rt) (rt_rand2 rt) (rt_rand3 rt) (rt_rsvd3 rt) (rt_rsvd4 rt)
                 (rt_full rt) (nt_fs x) (nt_core x) (map zc loc) (values of_val loc) (c, m, L) att),
      length (values of_val loc) = length (map zc loc) & List.Forall (cell_range (c, m, L)) (map zc loc)].
Proof.
  move=> HR EL FL c m. have B := localize_range _ _ _ _ _ _ HR FL.
  have [Ed FR LV] := nat_coords_ok of_val (B : forall e, List.In e loc -> in_box c m L e). split=> //.
  rewrite /put /Nti_model.nti_by_mode. rewrite nonempty. rewrite /localize in EL.
  case: map_to_local_u EL => // l0. rewrite [bind (Ok l0) _]/= => EL.
  by rewrite [bind (Ok l0) _]/= EL [bind (Ok loc) _]/= Ed [bind (Ok (map _ _)) _]/=.
Qed.
End OneStep.

Lemma tucker_rows r0 r1 r2 n0 n1 n2 (fs : @factors R) core : tucker_ok r0 r1 r2 n0 n1 n2 fs core ->
  mr (factor fs 0) = n0 /\ mr (factor fs 1) = n1.
Proof. by move=> [[[-> _] [-> _] _] _ _ _ _]. Qed.

Lemma orthonormal_proj m k (a : mat R) : (mx m k a)^T *m mx m k a = 1%:M -> orthonormal m k a.
Proof. by []. Qed.

Lemma old_outcome rt att r0 r1 r2 n0 n1 L fs core inds (vals : list R) :
  rt_ok rt -> att_shape L att -> tucker_ok r0 r1 r2 n0 n1 L fs core ->
  inds <> nil -> length vals = length inds -> List.Forall (cell_range (n0, n1, L)) inds ->
  match tucker_integrator 0 +%R *%R (fun y z => y - z) (rt_qr rt) is_one (factor fs 0) (factor fs 1) (factor fs 2) core inds vals
          (n0, n1, L) att with
  | Ok q => tucker_ok r0 r1 r2 n0 n1 L (old_factors q).1 (old_factors q).2
  | Err e => rt_raises rt e
  end.
Proof.
  move=> [QR _ _ _ _] Ha [[H0 H1 H2] [O0 O1 O2] W S [V0 V1 V2 [P0 P1 P2] [N0 N1 N2]]] NE LV FR.
  have TA : tucker_args n0 r0 n1 r1 L r2 (factor fs 0) (factor fs 1) (factor fs 2) core inds vals att by [].
  have := integrator_formula_main QR IS1 TA. case: tucker_integrator => [[[[u v] w] c]|e].
  - move=> [c1 [c2 [c3 [[S0 S1 S2] [[WC SC [q0 [_ _ OU _ _]] [q1 [_ _ OV _ _]] [q2 [_ _ OW _ _]]] _]]]]].
    by split.
  - by left.
Qed.

Lemma new_outcome rt att r0 r1 r2 n0 n1 L c m fs core inds (vals : list R) :
  rt_ok rt -> att_shape L att -> tucker_ok r0 r1 r2 n0 n1 L fs core ->
  length vals = length inds -> List.Forall (cell_range (c, m, L)) inds ->
  match update_tucker_new_matrix 0 1 +%R *%R (rt_qr rt) (rt_rand2 rt) (rt_rand3 rt) (rt_rsvd3 rt) (rt_rsvd4 rt)
                 (rt_full rt) fs core inds vals (c, m, L) att with
  | Ok (fs', core') => tucker_ok r0 r1 r2 (n0 + c) (n1 + m) L fs' core'
  | Err e => rt_raises rt e
  end.
Proof.
  move=> [_ _ _ [R3 T4] [FULL _]] Ha. case: fs => [[u v] w] [[H0 H1 H2] [O0 O1 O2] W S [V0 V1 V2 [P0 P1 P2] [N0 N1 N2]]] LV FR.
  have := new_matrix_main (rt_qr rt) (rt_rand2 rt) (rt_rand3 rt) R3 (truncated_right T4) FULL H0 H1 H2 W S Ha LV FR.
  case: update_tucker_new_matrix => [[fs' core']|e].
  - move=> [_ S' [WC SC] P]. have [[PO _] _] := P O0 O1 O2. split=> //.
    by split=> //; split=> //; [apply: leq_trans N0 (leq_addr _ _)|apply: leq_trans N1 (leq_addr _ _)].
  - case=> [[_ []] //|H]. rewrite /rt_raises. tauto.
Qed.

(** Only factors and core change in a step. *)
Definition only_factors (x x' : @nti_state R) : Prop := x' = set_factors x (nt_fs x') (nt_core x').

Lemma put_ok x r x' : put x r = Ok x' -> exists2 p, r = Ok p & x' = set_factors x p.1 p.2.
Proof. by case: r => [[fs core]|e] //= [<-]; exists (fs, core). Qed.
Lemma put_err x r e : put x r = Err e -> r = Err e.
Proof. by case: r => [[fs core]|e'] //= [->]. Qed.

Section Outcome.
Variables (cfg : nti_cfg) (L : nat) (att : option (mat R)) (rt : routines R) (r0 r1 r2 : nat).
Hypotheses (RT : rt_ok rt) (Ha : att_shape L att).
Notation v := (nc_variant cfg).

Definition step_result (x : @nti_state R) (d : list entry) (md : mode) (r : res (@nti_state R)) : Prop :=
  let n0 := n_rows x 0 in let n1 := n_rows x 1 in
  match r with
  | Ok x' => [/\ Tirec_proofs.size_ok v L md (Z.of_nat n0) (Z.of_nat n1) d = true, only_factors x x',
                 n_rows x' 0 = (n0 + length (Tirec_proofs.up_u md d))%N /\ n_rows x' 1 = (n1 + length (Tirec_proofs.up_i md d))%N
               & model_ok r0 r1 r2 L x']
  | Err e => Tirec_proofs.size_ok v L md (Z.of_nat n0) (Z.of_nat n1) d = false \/ rt_raises rt e
  end.

Lemma put_result x d md r :
  match r with
  | Ok (fs', core') => Tirec_proofs.size_ok v L md (Z.of_nat (n_rows x 0)) (Z.of_nat (n_rows x 1)) d = true /\
      tucker_ok r0 r1 r2 (n_rows x 0 + length (Tirec_proofs.up_u md d)) (n_rows x 1 + length (Tirec_proofs.up_i md d)) L fs' core'
  | Err e => Tirec_proofs.size_ok v L md (Z.of_nat (n_rows x 0)) (Z.of_nat (n_rows x 1)) d = false \/ rt_raises rt e
  end -> step_result x d md (put x r).
Proof.
  case: r => [[fs' core']|e] //= [SZ TK]. have [E0 E1] := tucker_rows TK.
  by split=> //; rewrite /model_ok /n_rows /set_factors [nt_fs _]/= E0 E1.
Qed.

Lemma by_mode_result x d md : model_ok r0 r1 r2 L x ->
  (forall e, List.In e d -> Tirec_proofs.in_range md L (Z.of_nat (n_rows x 0)) (Z.of_nat (n_rows x 1)) e) ->
  step_result x d md (nti_by_mode cfg L att rt x d md).
Proof.
  move=> MO HR. case Ed : d => [|e0 d0].
    split=> //; [apply: size_nil; exact: Zle_0_nat|by case: x {MO HR}|].
    by case: md {HR}; rewrite /= !addn0.
  rewrite -Ed. have NE : d <> nil by rewrite Ed. clear e0 d0 Ed.
  have [loc [EL FL]] := localize_exact md d.
  case: md HR EL FL => HR EL FL.
  - have [-> LV FR] := step_new cfg att rt x NE HR EL FL. apply: put_result.
    have := new_outcome RT Ha MO LV FR. case: update_tucker_new_matrix => [[fs' core']|e] H; last by right.
    split=> //. by case: v.
  - have [da -> [Sda _]] := step_new_users cfg rt NE erefl Ha HR EL FL. apply: put_result.
    have := add_vectors_ok (cfg := cfg) (em := EUsers) RT MO (proj1 Sda) (fun _ => Sda).
    case: Nti_model.add_vectors => [[fs' core']|e].
    + rewrite /em_u /em_i => -[SZ TK]. split; last by rewrite addn0 in TK *.
      apply/size_users => Ev. apply/leP. exact: SZ.
    + case=> [[Ev HC]|H]; [left|by right]. apply/negbTE/negP => /size_users H. move: (H Ev) => /leP. by rewrite leqNgt HC.
  - have [da -> [Sda _]] := step_new_items cfg rt NE erefl Ha HR EL FL. apply: put_result.
    have := add_vectors_ok (cfg := cfg) (em := EItems) RT MO (proj1 Sda) (fun _ => Sda).
    case: Nti_model.add_vectors => [[fs' core']|e].
    + rewrite /em_u /em_i => -[SZ TK]. split; last by rewrite addn0 in TK *.
      apply/size_items => Ev. apply/leP. exact: SZ.
    + case=> [[Ev HC]|H]; [left|by right]. apply/negbTE/negP => /size_items H. move: (H Ev) => /leP. by rewrite leqNgt HC.
  - have [-> NI LV FR] := step_old cfg att rt NE erefl erefl HR. apply: put_result.
    have := old_outcome RT Ha MO NI LV FR. case: tucker_integrator => [q|e] H; last by right.
    rewrite /=. case: (old_factors q) H => fs' core' /= H. rewrite !addn0. split=> //. by case: v.
Qed.
End Outcome.
End Steps.
