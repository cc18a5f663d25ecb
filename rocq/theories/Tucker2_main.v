(** Runs of tucker2. *)
From Verif Require Import Prelude Tensor_model Tensor_spec Matrix_model Attention_model LinAlg_model Hooi_model.
Set Warnings "-notation-overridden".
From mathcomp Require Import all_ssreflect all_algebra.
From Verif Require Import LinAlg_spec LinAlg_bridge Tucker_spec Tucker_bridge Hooi_spec Hooi_bridge Hooi_main Hooi_run Hooi_exact Hooi_final.
Set Implicit Arguments.
Unset Strict Implicit.
Unset Printing Implicit Defensive.
Import GRing.Theory.
Local Open Scope ring_scope.

Local Arguments set_factor : simpl never.
Local Arguments factor : simpl never.
Local Arguments init_factor : simpl never.

(** A loop of steps with the growth test. *)
Section Generic.
Variables (R : comRingType) (N : Type) (norm : ten R -> N) (grew : N -> N -> bool).
Variable step : nat -> @factors R -> res (@factors R * ten R).
Fixpoint gloop (left i : nat) (fs : @factors R) (core : option (ten R)) (old : N) : res (@factors R * option (ten R)) :=
  if left is left'.+1 then
    match step i fs with
    | Err e => Err e
    | Ok (fs', g) => if grew (norm g) old then gloop left' i.+1 fs' (Some g) (norm g) else Ok (fs', Some g)
    end
  else Ok (fs, core).

Lemma gloop_ok (P : @factors R -> Prop) (E : exn -> Prop) (sw : nat -> @factors R -> @factors R -> ten R -> Prop) :
  (forall i fs, P fs -> match step i fs with Err e => E e | Ok (fs', g) => sw i fs fs' g /\ P fs' end) ->
  forall left i fs core old, P fs ->
  match gloop left i fs core old with
  | Err e => E e
  | Ok (fs', core') => exists k F G (S : nat -> unit),
     [/\ F 0%N = fs, run norm old grew None false (fun t => sw (i + t)%N) left k F G S
       & [/\ fs' = F k, core' = (if k is 0 then core else Some (G k)) & P fs']]
  end.
Proof.
  move=> ST. elim=> [|left IH] i fs core old Pf.
    by exists 0%N, (fun _ => fs), (fun _ => mkTen (0, 0, 0)%N [::]), (fun _ => tt).
  rewrite /=. have := ST i fs Pf. case: (step i fs) => [[fs' g]|e] //= [SW Pf'].
  case D : (grew (norm g) old); last first.
    exists 1%N, (cons_seq fs (fun _ => fs')), (fun _ => g), (fun _ => tt). split=> //. split=> //.
    - by case=> // _; rewrite addn0.
    - case=> // _. exists true. by rewrite /decision /= D.
  have := IH i.+1 fs' (Some g) (norm g) Pf'.
  case: (gloop left _ _ _ _) => [[fs2 core2]|e] //= [k [F [G [S [F0 [K1 K2 K3 K4] [E1 E2 E3]]]]]].
  exists k.+1, (cons_seq fs F), (cons_seq g (fun t => if t is 0 then g else G t)), (fun _ => tt).
  split=> //; last by split=> //; rewrite E2; case: (k).
  split=> //.
  - by case=> [|t] Ht /=; rewrite ?addn0 ?F0 // addnS -addSn; case: t Ht => [|t] Ht; apply: K3.
  - case=> [|t] Ht /=.
      exists false. rewrite /decision /= D; split=> // _. case: (k) K2 => [|k'] K2; last by left.
      by right; case: (left) K2 => // l /(_ isT).
    have [b [Eb B1 B2]] := K4 t Ht. exists b; split.
    + by move: Eb; rewrite /decision; case: t {Ht B1 B2} => [|t] [_ <-].
    + by move=> Hb; rewrite B1.
    + by move=> /B2 [Hlt|->]; [left|right].
Qed.
End Generic.

Section Main.
Variable R : comRingType.
Variables (qr : mat R -> res (mat R * mat R)) (rand : nat -> nat -> nat -> mat R).
Variable rsvd : nat -> mat R -> nat -> res (mat R * list R * mat R).
Hypothesis QR : qr_ok qr.
Hypothesis RAND : forall m, randn_ok (rand m).
Hypothesis INNER : inner_ok rsvd.
Variables (N : Type) (norm : ten R -> N) (norm0 : N) (grew : N -> N -> bool).
Notation tucker2_mode := (Hooi_model.tucker2_mode (0 : R) +%R *%R rsvd).
Notation construct_core := (Tensor_model.construct_core (0 : R) +%R *%R).

Lemma set0 (g : @factors R) x : [/\ factor (set_factor g 0 x) 0 = x, factor (set_factor g 0 x) 1 = factor g 1 & factor (set_factor g 0 x) 2 = factor g 2].
Proof. by case: g => -[]. Qed.
Lemma set1 (g : @factors R) x : [/\ factor (set_factor g 1 x) 0 = factor g 0, factor (set_factor g 1 x) 1 = x & factor (set_factor g 1 x) 2 = factor g 2].
Proof. by case: g => -[]. Qed.
Lemma set_same (g : @factors R) : [/\ set_factor g 0 (factor g 0) = g, set_factor g 1 (factor g 1) = g & set_factor g 2 (factor g 2) = g].
Proof. by case: g => -[]. Qed.
Lemma set_all (g : @factors R) u v w : set_factor (set_factor (set_factor g 0 u) 1 v) 2 w = (u, v, w).
Proof. by case: g => -[]. Qed.

Section Args.
Variables (n0 r0 n1 r1 n2 r2 : nat) (inds : list cell) (vals : list R) (im : nat).
Notation data := (dense (List.combine inds vals)).
Hypothesis ARGS : hooi_args n0 r0 n1 r1 n2 r2 inds vals.
Notation sh := (n0, n1, n2). Notation rank := (r0, r1, r2).

Definition step2 (i : nat) (fs : @factors R) : res (@factors R * ten R) :=
  do fs' <- for_each (tucker2_mode inds vals sh rank im i) [:: 0; 1; 2]%N fs;
  do core <- construct_core inds vals (factor fs' 0) (factor fs' 1) (factor fs' 2);
  Ok (fs', core).

Lemma mode_ok mode n a b nn na ra nb rb rn i (fs : @factors R) : modes mode n a b ->
  axis sh n = nn -> axis sh a = na -> axis sh b = nb -> axis rank n = rn -> axis rank a = ra -> axis rank b = rb ->
  shape na ra (factor fs a) -> shape nb rb (factor fs b) -> (rn <= nn)%N -> (rn <= ra * rb)%N -> (n == im) = false ->
  match tucker2_mode inds vals sh rank im i n fs with
  | Err e => exists t x r, rsvd t x r = Err e
  | Ok fs' => exists f, [/\ fs' = set_factor fs n f,
       updates rsvd (3 * i + n) nn rn na ra nb rb (place n a) data (factor fs a) (factor fs b) f,
       shape nn rn f & orthonormal nn rn f]
  end.
Proof.
  case: ARGS => _ [_ [LV FR]]. move=> M En Ea Eb Rn Ra Rb Ha Hb L V NE. rewrite /Hooi_model.tucker2_mode eqb_eqn NE.
  have [m -> [_ P]] := contraction_ok M En Ea Eb Ra Rb Ha Hb LV FR. rewrite /= Rn.
  case E : (rsvd _ m rn) => [[[u s] vt]|e] /=; last by eexists _, _, _; exact: E.
  have [Hu O] := inner_cols INNER E (proj1 P) L V. have Rv := reverse_ok Hu.
  eexists; split; first by []; last first.
  - exact: reversed_orth Rv O.
  - by case: Rv.
  - by exists m, u, s, vt.
Qed.

(** Shapes, and the identity in its mode. *)
Definition shapes (fs : @factors R) : Prop :=
  [/\ shape n0 r0 (factor fs 0), shape n1 r1 (factor fs 1) & shape n2 r2 (factor fs 2)].
Definition orths (fs : @factors R) : Prop :=
  [/\ orthonormal n0 r0 (factor fs 0), orthonormal n1 r1 (factor fs 1) & orthonormal n2 r2 (factor fs 2)].

Lemma step2_ok i fs : shapes fs -> orths fs ->
  match step2 i fs with
  | Err e => exists t x r, rsvd t x r = Err e
  | Ok (fs', g) => sweep2 n0 r0 n1 r1 n2 r2 data rsvd im i fs fs' g /\ shapes fs' /\ orths fs'
  end.
Proof.
  case: ARGS => [[L0 L1 L2] [[V0 V1 V2] [LV FR]]] [S0 S1 S2] [O0 O1 O2]. rewrite /step2 /=.
  have H0 : match tucker2_mode inds vals sh rank im i 0 fs with
    | Err e => exists t x r, rsvd t x r = Err e
    | Ok fs' => exists f, [/\ fs' = set_factor fs 0 f,
        if im == 0%N then f = factor fs 0 else updates rsvd (3 * i) n0 r0 n1 r1 n2 r2 at0 data (factor fs 1) (factor fs 2) f,
        shape n0 r0 f & orthonormal n0 r0 f] end.
    have [E|NE] := eqVneq im 0%N.
      rewrite /Hooi_model.tucker2_mode E /=. exists (factor fs 0). by have [-> _ _] := set_same fs.
    have := mode_ok i (fs := fs) mode_0 erefl erefl erefl erefl erefl erefl S1 S2 L0 V0 (etrans (eq_sym _ _) (negbTE NE)).
    by rewrite /= addn0; case: (tucker2_mode _ _ _ _ _ _ _ _).
  case: (tucker2_mode _ _ _ _ _ _ _ _) H0 => [fs1|e] //= [u [-> Uu Su Ou]].
  set fs1' := set_factor fs 0 u.
  have [F0 F1 F2] := set0 fs u. rewrite -/fs1' in F0 F1 F2.
  have H1 : match tucker2_mode inds vals sh rank im i 1 fs1' with
    | Err e => exists t x r, rsvd t x r = Err e
    | Ok fs' => exists f, [/\ fs' = set_factor fs1' 1 f,
        if im == 1%N then f = factor fs 1 else updates rsvd (3 * i + 1) n1 r1 n0 r0 n2 r2 at1 data u (factor fs 2) f,
        shape n1 r1 f & orthonormal n1 r1 f] end.
    have [E|NE] := eqVneq im 1%N.
      rewrite /Hooi_model.tucker2_mode E /=. exists (factor fs 1). have [_ E1 _] := set_same fs1'. by rewrite F1 in E1; rewrite E1.
    have := mode_ok i (fs := fs1') mode_1 erefl erefl erefl erefl erefl erefl _ _ L1 V1 (etrans (eq_sym _ _) (negbTE NE)).
    rewrite F0 F2 => /(_ Su S2). by case: (tucker2_mode _ _ _ _ _ _ _ _).
  case: (tucker2_mode _ _ _ _ _ _ _ _) H1 => [fs2|e] //= [v [-> Uv Sv Ov]].
  set fs2' := set_factor fs1' 1 v.
  have [G0 G1 G2] := set1 fs1' v. rewrite -/fs2' F0 in G0. rewrite -/fs2' in G1. rewrite -/fs2' F2 in G2.
  have H2 : match tucker2_mode inds vals sh rank im i 2 fs2' with
    | Err e => exists t x r, rsvd t x r = Err e
    | Ok fs' => exists f, [/\ fs' = set_factor fs2' 2 f,
        if im == 2%N then f = factor fs 2 else updates rsvd (3 * i + 2) n2 r2 n0 r0 n1 r1 at2 data u v f,
        shape n2 r2 f & orthonormal n2 r2 f] end.
    have [E|NE] := eqVneq im 2%N.
      rewrite /Hooi_model.tucker2_mode E /=. exists (factor fs 2). have [_ _ E2] := set_same fs2'. by rewrite G2 in E2; rewrite E2.
    have := mode_ok i (fs := fs2') mode_2 erefl erefl erefl erefl erefl erefl _ _ L2 V2 (etrans (eq_sym _ _) (negbTE NE)).
    rewrite G0 G1 => /(_ Su Sv). by case: (tucker2_mode _ _ _ _ _ _ _ _).
  case: (tucker2_mode _ _ _ _ _ _ _ _) H2 => [fs3|e] //= [w [-> Uw Sw Ow]].
  rewrite set_all.
  rewrite /factor /=. have [core -> CO] := core_ok Su Sv Sw LV FR. by rewrite /=.
Qed.

Section Loop.
Notation tucker2_loop := (Hooi_model.tucker2_loop (0 : R) +%R *%R rsvd norm grew inds vals sh rank im).
Lemma tucker2_loopE left : forall i fs core old, tucker2_loop left i fs core old = gloop norm grew step2 left i fs core old.
Proof.
  elim: left => [|left IH] i fs core old //=. rewrite /step2 /=.
  case: (tucker2_mode _ _ _ _ _ _ _ _) => //= a. case: (tucker2_mode _ _ _ _ _ _ _ _) => //= b.
  case: (tucker2_mode _ _ _ _ _ _ _ _) => //= c. case: (construct_core _ _ _ _ _) => //= g. by rewrite IH.
Qed.
End Loop.

Lemma tucker2_main n_iter : (im < 3)%N -> axis rank im = axis sh im ->
  match tucker2 (0 : R) 1 +%R *%R qr rand rsvd norm norm0 grew inds vals sh rank im n_iter with
  | Err e => (exists x, qr x = Err e) \/ (exists t x r, rsvd t x r = Err e)
  | Ok (fa, fb, core) => exists k F G (S : nat -> unit) (u v w : mat R),
    [/\ F k = (u, v, w), (fa, fb) = (if im is 0 then (v, w) else if im is 1 then (u, w) else (u, v)),
        [/\ if im == 0%N then mx n0 r0 (factor (F 0%N) 0) = \matrix_(i, j) (i == j :> nat)%:R else start_factor qr rand 0 n0 r0 None (factor (F 0%N) 0),
            if im == 1%N then mx n1 r1 (factor (F 0%N) 1) = \matrix_(i, j) (i == j :> nat)%:R else start_factor qr rand 1 n1 r1 None (factor (F 0%N) 1)
          & if im == 2%N then mx n2 r2 (factor (F 0%N) 2) = \matrix_(i, j) (i == j :> nat)%:R else start_factor qr rand 2 n2 r2 None (factor (F 0%N) 2)],
        run norm norm0 grew None false (sweep2 n0 r0 n1 r1 n2 r2 data rsvd im) n_iter k F G S
      & (core = None /\ k = 0%N) \/
        exists2 g, core = Some g & projection n0 r0 n1 r1 n2 r2 data (u, v, w) g]
  end.
Proof.
  move=> IM EI. case: (ARGS) => [[L0 L1 L2] [V _]].
  rewrite /tucker2 /check_params (introT (rank_validE r0 r1 r2) V) /= /init_factors.
  have := init_factor_ok QR RAND (mode := 0) (erefl : axis sh 0 = n0) (erefl : axis rank 0 = r0).
  case: (init_factor _ _ _ _ _ _) => [f0|e] /=; last by left. rewrite (minn_idPr L0) => -[S0 [s0 Q0]].
  have := init_factor_ok QR RAND (mode := 1) (erefl : axis sh 1 = n1) (erefl : axis rank 1 = r1).
  case: (init_factor _ _ _ _ _ _) => [f1|e] /=; last by left. rewrite (minn_idPr L1) => -[S1 [s1 Q1]].
  have := init_factor_ok QR RAND (mode := 2) (erefl : axis sh 2 = n2) (erefl : axis rank 2 = r2).
  case: (init_factor _ _ _ _ _ _) => [f2|e] /=; last by left. rewrite (minn_idPr L2) => -[S2 [s2 Q2]].
  have QO m n r q s : qr (rand m n r) = Ok (q, s) -> (r <= n)%N -> orthonormal n r q.
    move=> E L. have [_ _ _ O] := QR E. have [E1 E2] := RAND m n r. by move: O; rewrite E1 E2 (minn_idPr L).
  have -> : PeanoNat.Nat.ltb 2 im = false by case: (im) IM => [|[|[|]]].
  set fs := set_factor _ im _.
  have EY n r : r = n -> shape n r (eye (0 : R) 1 r) /\ [/\ orthonormal n r (eye (0 : R) 1 r) & mx n r (eye (0 : R) 1 r) = \matrix_(i, j) (i == j :> nat)%:R].
    move=> ->. have [Se Ee] := eye_ok R n. split=> //. rewrite /orthonormal Ee trmx1 mul1mx. split=> //.
    by apply/matrixP => i j; rewrite !mxE.
  have [Hsh [Hor [I0 I1 I2]]] : shapes fs /\ orths fs /\ [/\ if im == 0%N then mx n0 r0 (factor fs 0) = \matrix_(i, j) (i == j :> nat)%:R else start_factor qr rand 0 n0 r0 None (factor fs 0),
            if im == 1%N then mx n1 r1 (factor fs 1) = \matrix_(i, j) (i == j :> nat)%:R else start_factor qr rand 1 n1 r1 None (factor fs 1)
          & if im == 2%N then mx n2 r2 (factor fs 2) = \matrix_(i, j) (i == j :> nat)%:R else start_factor qr rand 2 n2 r2 None (factor fs 2)].
    have T0 := start_none (qr := qr) (rand := rand) (mode := 0) Q0 S0. have T1 := start_none (qr := qr) (rand := rand) (mode := 1) Q1 S1. have T2 := start_none (qr := qr) (rand := rand) (mode := 2) Q2 S2.
    have O0 := QO _ _ _ _ _ Q0 L0. have O1 := QO _ _ _ _ _ Q1 L1. have O2 := QO _ _ _ _ _ Q2 L2.
    rewrite /fs /shapes /orths. move: IM EI. case: (im) => [|[|[|]]] //= _ E; have [Y1 [Y2 Y3]] := EY _ _ E; by split; [|split].
  have ST i f : shapes f /\ orths f -> match step2 i f with
      | Err e => exists t x r, rsvd t x r = Err e
      | Ok (f', g) => sweep2 n0 r0 n1 r1 n2 r2 data rsvd im i f f' g /\ (shapes f' /\ orths f') end.
    by move=> [H1 H2]; apply: step2_ok.
  rewrite tucker2_loopE.
  have := gloop_ok norm grew ST n_iter 0 None norm0 (conj Hsh Hor).
  case: (gloop _ _ _ _ _ _ _) => [[fs' core]|e] /=; last by right.
  move=> [k [F [G [S [F0 RUN [-> -> [PS PO]]]]]]]. case Eo : (others im) => [a b] /=.
  case EF : (F k) => [[u v] w]. exists k, F, G, S, u, v, w. split=> //.
  - by move: IM Eo; clear; case: im => [|[|[|]]] //= _ [<- <-].
  - by rewrite F0.
  - case: RUN => _ _ SW _. case: (k) SW EF PS PO => [|k'] SW EF PS PO; first by left.
    right. exists (G k'.+1) => //. have [_ _ _] := SW k' (ltnSn _). rewrite EF in PS PO *. move=> CO.
    case: PS => H1 H2 H3. case: PO => G1 G2 G3. exact: (projection_of H1 H2 H3 G1 G2 G3 CO).
Qed.
End Args.
End Main.
