(** Proofs for C43 and C55: the whole integrator. *)
From Verif Require Import Prelude Prelude_proofs Tensor_model Tensor_spec Tensor_proofs Tensor_main Tensor_extra
  Matrix_model Attention_model LinAlg_model.
Set Warnings "-notation-overridden".
From mathcomp Require Import all_ssreflect all_algebra.
From Verif Require Import LinAlg_spec LinAlg_bridge Tucker_model Tucker_spec Tucker_bridge Tucker_modes Tucker_main.
Set Implicit Arguments.
Unset Strict Implicit.
Unset Printing Implicit Defensive.
Import GRing.Theory.
Local Open Scope ring_scope.

Section Integrator.
Variable R : comRingType.
Variables (qr : mat R -> res (mat R * mat R)) (is_one : R -> bool).
Hypotheses (QR : qr_ok qr) (ONE : forall v, is_one v = true -> v = 1).
Notation tget := (tget (0 : R)).
Notation integrator := (tucker_integrator (0 : R) +%R *%R (fun x y => x - y) qr is_one).

Lemma tplus_ok (x y : ten R) sh : tshape x = sh -> tshape y = sh ->
  exists2 t, tplus 0 +%R x y = Ok t & [/\ twf t, tshape t = sh & forall c, in_range sh c -> tget t c = tget x c + tget y c].
Proof.
  move=> Hx Hy. rewrite /tplus /coord_same Hx Hy !PeanoNat.Nat.eqb_refl /=. eexists; first by [].
  split => //; first exact: map_cells_wf. move=> c Hc. by rewrite tget_map_cells.
Qed.

Lemma core_unf n0 r0 n1 r1 n2 r2 (d t : cell -> R) (u : 'M_(n0, r0)) (v : 'M_(n1, r1)) (w : 'M_(n2, r2)) :
  (forall (a : 'I_r0) (b : 'I_r1) (c : 'I_r2), t (a : nat, b : nat, c : nat)
     = \sum_(i < n0) \sum_(j < n1) \sum_(k < n2) d (i : nat, j : nat, k : nat) * u i a * v j b * w k c) ->
  unf 0 1 r0 r1 r2 t = u^T *m unf 0 1 n0 n1 n2 d *m krn v w.
Proof.
  move=> H; apply/matrixP => a z. rewrite -mulmxA !mxE.
  rewrite [LHS](H a (lo z) (hi z)). apply: eq_bigr => i _. rewrite !mxE.
  rewrite -(sum_lohi (fun j k => d (i : nat, j : nat, k : nat) * u i a * v j (lo z) * w k (hi z))).
  rewrite big_distrr /=. apply: eq_bigr => y _. rewrite !mxE /place /=.
  by rewrite [X in X * _ * _]mulrC -!mulrA.
Qed.

Variables (n0 r0 n1 r1 n2 r2 : nat) (u v w : mat R) (core : ten R).
Variables (inds : list cell) (vals : list R) (att : option (mat R)).
Hypotheses (Hu : shape n0 r0 u) (Hv : shape n1 r1 v) (Hw : shape n2 r2 w).
Hypotheses (W : twf core) (SH : tshape core = (r0, r1, r2)).
Hypotheses (V0 : (r0 <= r1 * r2)%N) (V1 : (r1 <= r0 * r2)%N) (V2 : (r2 <= r0 * r1)%N).
Hypotheses (L0 : (r0 <= n0)%N) (L1 : (r1 <= n1)%N) (L2 : (r2 <= n2)%N).
Hypothesis HA : att_shape n2 att.
Hypotheses (NE : inds <> nil) (LV : length vals = length inds) (FR : List.Forall (in_range (n0, n1, n2)) inds).

Let A := attm n2 att.
Let data := dense (List.combine inds vals).
Let seen := dense (done_entries inds vals).

Notation outcome := (integrator_outcome n0 r0 n1 r1 n2 r2 u v w core inds vals att).

Lemma integrator_main :
  match integrator u v w core inds vals (n0, n1, n2) att with
  | Err e => exists x, qr x = Err e
  | Ok (un, vn, wn, cn) => exists c1 c2 c3, outcome un vn wn c1 c2 c3 cn
  end.
Proof.
  rewrite /tucker_integrator.
  have := @step_main R qr is_one QR ONE att 0 0 1 2 n0 r0 n1 r1 n2 r2 inds vals (n0, n1, n2) u core v w
    mode_0 erefl erefl erefl erefl W.
  rewrite SH => /(_ erefl erefl erefl V0 L0 Hu Hv Hw HA NE LV FR).
  case: (integrator_step _ _ _ _ _ _ _ _ _ _ 0 _ _ _ _) => [[[un c1] u2]|e] //= [Hun W1 S1 [Hu2 E2] P0].
  have := @step_main R qr is_one QR ONE att 1 1 0 2 n1 r1 n0 r0 n2 r2 inds vals (n0, n1, n2) v c1 un u2
    mode_1 erefl erefl erefl erefl W1.
  rewrite S1 => /(_ erefl erefl erefl V1 L1 Hv Hun Hu2 HA NE LV FR).
  case: (integrator_step _ _ _ _ _ _ _ _ _ _ 1 _ _ _ _) => [[[vn c2] u2']|e] //= [Hvn W2 S2 [Hu2' E2'] P1].
  have := @step_main R qr is_one QR ONE att 2 2 0 1 n2 r2 n0 r0 n1 r1 inds vals (n0, n1, n2) w c2 un vn
    mode_2 erefl erefl erefl erefl W2.
  rewrite S2 => /(_ erefl erefl erefl V2 L2 Hw Hun Hvn HA NE LV FR).
  case: (integrator_step _ _ _ _ _ _ _ _ _ _ 2 _ _ _ _) => [[[wn c3] vn']|e] //= [Hwn W3 S3 [Hvn' E3] P2].
  have [wa -> [Hwa Ewa]] : exists2 wa, match att with Some a => dot 0 +%R *%R a wn | None => Ok wn end = Ok wa
    & shape n2 r2 wa /\ mx n2 r2 wa = A *m mx n2 r2 wn.
    rewrite /A. move: HA. case: (att) => [a|] /= Ha; last by exists wn => //; rewrite mul1mx.
    by have [c -> [Hc Ec]] := dot_ok Ha Hwn; exists c.
  rewrite /=.
  have [dc -> [Wd Sd Cd]] := core_ok Hun Hvn Hwa LV FR. rewrite /=.
  have [cn -> [Wn Sn Cn]] := tplus_ok S3 Sd. rewrite /=.
  exists c1, c2, c3. split => //. rewrite mul1mx in E3. split; first split => //.
  - by move: P0; rewrite E2.
  - by move: P1; rewrite E2' E2.
  - by move: P2; rewrite E3.
  rewrite -Ewa -(core_unf Cd). apply/matrixP => i y. rewrite !mxE Cn //.
  by apply/(place_range _ _ _ _ mode_0); split.
Qed.

(** Zero values: the represented tensor stays the same. *)
Lemma zero_main un vn wn cn : List.Forall (fun x => x = 0) vals ->
  integrator u v w core inds vals (n0, n1, n2) att = Ok (un, vn, wn, cn) ->
  forall c, in_range (n0, n1, n2) c -> rep un vn wn cn c = rep u v w core c.
Proof.
  move=> Z E. move: integrator_main. rewrite E => -[c1 [c2 [c3 [[Hun Hvn Hwn] [[Wn Sn P0 P1 P2] Ecn]]]]].
  have DZ es : List.Forall (fun e : cell * R => e.2 = 0) es -> forall c, dense es c = 0.
    elim=> [|e l He _ IH] c; first by rewrite dense_nil. by rewrite dense_cons IH addr0 He; case: ifP.
  have FZ : List.Forall (fun e : cell * R => e.2 = 0) (List.combine inds vals).
    move: Z; clear; elim: inds vals => [|i l IH] [|x vs] H /=; try by constructor.
    by inversion H; subst; constructor => //; apply: IH.
  have D0 : forall c, data c = 0 by apply: DZ.
  have S0 : forall c, seen c = 0 by apply: DZ; apply: Forall_firstn.
  have UZ n a nn na nb (s : cell -> R) : (forall c, s c = 0) -> unf n a nn na nb s = 0.
    by move=> H; apply/matrixP => i y; rewrite !mxE H.
  have step nn rn N K (f f' : 'M[R]_(nn, rn)) (c c' : 'M[R]_(rn, K)) l (g : 'M[R]_(N, K)) :
    step_ok f f' c c' l 0 g -> f' *m c' = f *m c.
    by move=> [q [_ _ _ _ ->]]; rewrite mulmx0 !mul0mx mulmx0 addr0.
  have /step E0 := eq_ind _ (fun d => step_ok _ _ _ _ _ d _) P0 _ (UZ 0%N 1%N n0 n1 n2 seen S0).
  have /step E1 := eq_ind _ (fun d => step_ok _ _ _ _ _ d _) P1 _ (UZ 1%N 0%N n1 n0 n2 seen S0).
  have /step E2 := eq_ind _ (fun d => step_ok _ _ _ _ _ d _) P2 _ (UZ 2%N 0%N n2 n0 n1 seen S0).
  have Ec : unf 0 1 r0 r1 r2 (tget cn) = unf 0 1 r0 r1 r2 (tget c3) by rewrite Ecn (UZ _ _ _ _ _ data D0) mulmx0 mul0mx addr0.
  have Q1 : unf 0 1 n0 n1 n2 (rep un v w c1) = unf 0 1 n0 n1 n2 (rep u v w core).
    by rewrite (rep_unf0 _ Hun Hv Hw) (rep_unf0 _ Hu Hv Hw) E0.
  have Q2 : unf 1 0 n1 n0 n2 (rep un vn w c2) = unf 1 0 n1 n0 n2 (rep un v w c1).
    by rewrite (rep_unf1 _ Hun Hvn Hw) (rep_unf1 _ Hun Hv Hw) E1.
  have Q3 : unf 2 0 n2 n0 n1 (rep un vn wn c3) = unf 2 0 n2 n0 n1 (rep un vn w c2).
    by rewrite (rep_unf2 _ Hun Hvn Hwn) (rep_unf2 _ Hun Hvn Hw) E2.
  have Q4 : unf 0 1 n0 n1 n2 (rep un vn wn cn) = unf 0 1 n0 n1 n2 (rep un vn wn c3).
    by rewrite !(rep_unf0 _ Hun Hvn Hwn) Ec.
  move=> [[i j] k] [/ltP Hi [/ltP Hj /ltP Hk]].
  rewrite -(unf_inj Q1 Hi Hj Hk) -(unf_inj Q2 Hj Hi Hk) -(unf_inj Q3 Hk Hi Hj).
  exact: (unf_inj Q4 Hi Hj Hk).
Qed.

(** Exactness. *)
Lemma exact_step nn rn N K (f f' : 'M[R]_(nn, rn)) (c c' : 'M[R]_(rn, K)) l (d : 'M[R]_(nn, N)) g (t : 'M[R]_(nn, N)) h :
  step_ok f f' c c' l d g -> l *m d *m g = t *m h - f *m c -> (exists x, t = t *m h *m c^T *m x) ->
  f' *m f'^T *m t = t /\ c' = f'^T *m f *m c.
Proof.
  move=> [q []] Oq Cq Of. rewrite /= => Kk Ec ED [x Ex]. rewrite ED in Kk Ec.
  have Ek : f *m c *m q + (t *m h - f *m c) *m q = t *m h *m q by rewrite mulmxBl addrCA subrr addr0.
  rewrite Ek in Kk.
  have Cqt : c^T = q *m (q^T *m c^T) by rewrite -{1}Cq !trmx_mul trmxK.
  have Pt : f' *m f'^T *m t = t.
    rewrite Cqt in Ex. rewrite [in LHS]Ex !mulmxA. rewrite !mulmxA in Kk. rewrite Kk. by rewrite [in RHS]Ex !mulmxA.
  split => //.
  have : f'^T *m (f' *m c') = f'^T *m f *m c.
    have Z : f'^T *m (1%:M - f' *m f'^T) = 0 by rewrite mulmxBr mulmx1 mulmxA Of mul1mx subrr.
    by rewrite Ec mulmxDr [X in _ + X]mulmxA Z mul0mx addr0 mulmxA.
  by rewrite mulmxA Of mul1mx.
Qed.

Lemma exact_main un vn wn cn (t : cell -> R) :
  processed max_points (length inds) = length inds ->
  (mx n1 r1 v)^T *m mx n1 r1 v = 1%:M -> (mx n2 r2 w)^T *m mx n2 r2 w = 1%:M ->
  A *m (A *m mx n2 r2 w) = A *m mx n2 r2 w ->
  (forall (i : 'I_n0) (j : 'I_n1) (k : 'I_n2), t (i : nat, j : nat, k : nat)
     = rep u v w core (i : nat, j : nat, k : nat) + \sum_(l < n2) A l k * data (i : nat, j : nat, l : nat)) ->
  (exists x, unf 0 1 n0 n1 n2 t = unf 0 1 n0 n1 n2 t *m krn (mx n1 r1 v) (mx n2 r2 w) *m (unf 0 1 r0 r1 r2 (tget core))^T *m x) ->
  (exists x, unf 1 0 n1 n0 n2 t = unf 1 0 n1 n0 n2 t *m krn (mx n0 r0 u) (mx n2 r2 w) *m (unf 1 0 r1 r0 r2 (tget core))^T *m x) ->
  (exists x, unf 2 0 n2 n0 n1 t = unf 2 0 n2 n0 n1 t *m krn (mx n0 r0 u) (mx n1 r1 v) *m (unf 2 0 r2 r0 r1 (tget core))^T *m x) ->
  integrator u v w core inds vals (n0, n1, n2) att = Ok (un, vn, wn, cn) ->
  forall c, in_range (n0, n1, n2) c -> rep un vn wn cn c = t c.
Proof.
  move=> PR Ov Ow AA T X0 X1 X2 E. move: integrator_main. rewrite E => -[c1 [c2 [c3 [[Hun Hvn Hwn] [[Wn Sn P0 P1 P2] Ecn]]]]].
  rewrite -/A -/data in Ecn. rewrite -/A -/seen in P0 P1 P2.
  have SD : seen = data.
    rewrite /seen /data /done_entries PR List.firstn_all2 // List.combine_length LV PeanoNat.Nat.min_id. exact: le_n.
  rewrite SD AA in P0 P1 P2. set dt := fun c => t c - rep u v w core c.
  have DT n a nn na nb : unf n a nn na nb dt = unf n a nn na nb t - unf n a nn na nb (rep u v w core).
    by apply/matrixP => i y; rewrite !mxE.
  have D2 : unf 2 0 n2 n0 n1 dt = A^T *m unf 2 0 n2 n0 n1 data.
    apply/matrixP => k y. rewrite mxE /dt [t _](T (lo y) (hi y) k) mxE.
    rewrite [in X in _ - X]/place /= addrC addKr. apply: eq_bigr => l _. by rewrite !mxE.
  have D0 := swap20 D2. have D1 := swap21 D2.
  rewrite krn_tr trmx1 trmxK in D0. rewrite krn_tr trmx1 trmxK in D1.
  set U := mx n0 r0 u in P0 P1 P2 X1 X2 *. set V := mx n1 r1 v in P0 P1 P2 X0 X1 X2 Ov *.
  set W' := mx n2 r2 w in P0 P1 P2 X0 X1 X2 Ow AA *.
  set U' := mx n0 r0 un in P0 P1 P2 Ecn *. set V' := mx n1 r1 vn in P0 P1 P2 Ecn *. set W'' := mx n2 r2 wn in P0 P1 P2 Ecn *.
  have OU : U'^T *m U' = 1%:M by case: P0 => q [].
  have OV : V'^T *m V' = 1%:M by case: P1 => q [].
  have tr_proj m k (f : 'M[R]_(m, k)) : (f *m f^T)^T = f *m f^T by rewrite trmx_mul trmxK.
  (* mode 0 *)
  have [PU C1] : U' *m U'^T *m unf 0 1 n0 n1 n2 t = unf 0 1 n0 n1 n2 t
     /\ unf 0 1 r0 r1 r2 (tget c1) = U'^T *m U *m unf 0 1 r0 r1 r2 (tget core).
    apply: (exact_step P0 _ X0). rewrite mul1mx -{1}(mul1mx V) -krnM mulmxA -D0 DT mulmxBl.
    by rewrite (rep_unf0 _ Hu Hv Hw) -mulmxA krn_tr krnM Ov Ow krn1 mulmx1.
  have PU1 := swap01 (esym PU). have PU2 := swap02 (esym PU). rewrite krn_tr tr_proj trmx1 in PU1. rewrite krn_tr tr_proj trmx1 in PU2.
  have C11 := swap01 C1. have C12 := swap02 C1. rewrite krn_tr trmx_mul trmxK trmx1 in C11. rewrite krn_tr trmx_mul trmxK trmx1 in C12.
  (* mode 1 *)
  have [PV C2] : V' *m V'^T *m unf 1 0 n1 n0 n2 t = unf 1 0 n1 n0 n2 t
     /\ unf 1 0 r1 r0 r2 (tget c2) = V'^T *m V *m unf 1 0 r1 r0 r2 (tget c1).
    apply: (exact_step (h := krn U' W') P1).
    - rewrite mul1mx -{1}(mul1mx U') -krnM mulmxA -D1 DT mulmxBl.
      by rewrite (rep_unf1 _ Hu Hv Hw) -!mulmxA krn_tr krnM Ow C11.
    - case: X1 => x Ex; exists x. rewrite {1}Ex C11 trmx_mul krn_tr trmx_mul trmxK trmx1.
      congr (_ *m _). rewrite !mulmxA. congr (_ *m _).
      by rewrite [in LHS]PU1 -!mulmxA !krnM !mul1mx mulmx1 !mulmxA.
  have PV0 := swap10 (esym PV). have PV2 := swap12 (esym PV). rewrite krn_tr tr_proj trmx1 in PV0. rewrite krn_tr tr_proj trmx1 in PV2.
  have C20 := swap10 C2. have C22 := swap12 C2. rewrite krn_tr trmx_mul trmxK trmx1 in C20. rewrite krn_tr trmx_mul trmxK trmx1 in C22.
  (* mode 2 *)
  have [PW C3] : W'' *m W''^T *m unf 2 0 n2 n0 n1 t = unf 2 0 n2 n0 n1 t
     /\ unf 2 0 r2 r0 r1 (tget c3) = W''^T *m W' *m unf 2 0 r2 r0 r1 (tget c2).
    apply: (exact_step (h := krn U' V') P2).
    - rewrite -D2 DT mulmxBl (rep_unf2 _ Hu Hv Hw) -!mulmxA krn_tr krnM C22 C12 -!mulmxA krnM.
      by rewrite mulmx1 mul1mx.
    - case: X2 => x Ex; exists x. rewrite {1}Ex C22 C12 !trmx_mul !krn_tr !trmx_mul !trmxK !trmx1.
      congr (_ *m _). rewrite !mulmxA. congr (_ *m _).
      rewrite -!mulmxA !krnM !mulmx1 !mul1mx !mulmxA. rewrite [in LHS]PU2 [in LHS]PV2.
      by rewrite -!mulmxA !krnM !mul1mx !mulmxA.
  have PW0 := swap20 (esym PW). rewrite krn_tr tr_proj trmx1 in PW0.
  have C30 := swap20 C3. rewrite krn_tr trmx_mul trmxK trmx1 in C30.
  have E3 : unf 0 1 r0 r1 r2 (tget c3) = U'^T *m unf 0 1 n0 n1 n2 (rep u v w core) *m krn V' W''.
    rewrite (rep_unf0 _ Hu Hv Hw) C30 C20 C1 -/U -/V -/W' krn_tr -!mulmxA !krnM. by rewrite mulmx1 mul1mx.
  have E4 : unf 0 1 r0 r1 r2 (tget cn) = U'^T *m unf 0 1 n0 n1 n2 t *m krn V' W''.
    have -> : unf 0 1 n0 n1 n2 t = unf 0 1 n0 n1 n2 (rep u v w core) + unf 0 1 n0 n1 n2 dt by rewrite DT addrC subrK.
    rewrite Ecn E3 D0 mulmxDr mulmxDl. congr (_ + _). rewrite -!mulmxA. congr (_ *m _). congr (_ *m _).
    by rewrite krnM mul1mx.
  have Q : unf 0 1 n0 n1 n2 (rep un vn wn cn) = unf 0 1 n0 n1 n2 t.
    rewrite (rep_unf0 _ Hun Hvn Hwn) E4 -/U' -/V' -/W'' krn_tr !mulmxA PU -mulmxA krnM.
    by rewrite [in RHS]PW0 [in RHS]PV0 -mulmxA krnM mulmx1 mul1mx.
  move=> [[i j] k] [/ltP Hi [/ltP Hj /ltP Hk]]. exact: (unf_inj Q Hi Hj Hk).
Qed.
End Integrator.

(** The statements in terms of the vocabulary of the specification. *)
Section Statements.
Variable R : comRingType.
Variables (qr : mat R -> res (mat R * mat R)) (is_one : R -> bool).
Hypotheses (QR : qr_ok qr) (ONE : forall v, is_one v = true -> v = 1).
Notation integrator := (tucker_integrator (0 : R) +%R *%R (fun x y => x - y) qr is_one).

Lemma integrator_formula_main n0 r0 n1 r1 n2 r2 u v w core inds vals att :
  tucker_args n0 r0 n1 r1 n2 r2 u v w core inds vals att ->
  match integrator u v w core inds vals (n0, n1, n2) att with
  | Err e => exists x, qr x = Err e
  | Ok (un, vn, wn, cn) => exists c1 c2 c3, integrator_outcome n0 r0 n1 r1 n2 r2 u v w core inds vals att un vn wn c1 c2 c3 cn
  end.
Proof. move=> [[? ? ? ?] [[? ?] [[? ? ?] [[? ? ?] [? ? ?]]]]]. exact: integrator_main. Qed.

Lemma integrator_zero_main n0 r0 n1 r1 n2 r2 u v w core inds vals att un vn wn cn :
  tucker_args n0 r0 n1 r1 n2 r2 u v w core inds vals att -> List.Forall (fun x => x = 0) vals ->
  integrator u v w core inds vals (n0, n1, n2) att = Ok (un, vn, wn, cn) ->
  forall c, in_range (n0, n1, n2) c -> rep un vn wn cn c = rep u v w core c.
Proof. move=> [[? ? ? ?] [[? ?] [[? ? ?] [[? ? ?] [? ? ?]]]]] Z E. by apply: (@zero_main R qr is_one QR ONE n0 r0 n1 r1 n2 r2 u v w core inds vals att). Qed.

Lemma integrator_exact_main n0 r0 n1 r1 n2 r2 u v w core inds vals att t un vn wn cn :
  tucker_args n0 r0 n1 r1 n2 r2 u v w core inds vals att ->
  processed max_points (length inds) = length inds ->
  orthonormal n1 r1 v -> orthonormal n2 r2 w ->
  attm n2 att *m (attm n2 att *m mx n2 r2 w) = attm n2 att *m mx n2 r2 w ->
  is_target n0 n1 n2 u v w core (List.combine inds vals) att t ->
  keeps_columns n0 r0 n1 r1 n2 r2 u v w core t ->
  integrator u v w core inds vals (n0, n1, n2) att = Ok (un, vn, wn, cn) ->
  forall c, in_range (n0, n1, n2) c -> rep un vn wn cn c = t c.
Proof.
  move=> [[? ? ? ?] [[? ?] [[? ? ?] [[? ? ?] [? ? ?]]]]] PR Ov Ow AA T [X0 X1 X2] E.
  by apply: (@exact_main R qr is_one QR ONE n0 r0 n1 r1 n2 r2 u v w core inds vals att).
Qed.

Lemma integrator_exact_plain_main n0 r0 n1 r1 n2 r2 u v w core inds vals t un vn wn cn :
  tucker_args n0 r0 n1 r1 n2 r2 u v w core inds vals None ->
  processed max_points (length inds) = length inds ->
  orthonormal n1 r1 v -> orthonormal n2 r2 w ->
  (forall i j k, (i < n0)%N -> (j < n1)%N -> (k < n2)%N ->
     t (i, j, k) = rep u v w core (i, j, k) + dense (List.combine inds vals) (i, j, k)) ->
  keeps_columns n0 r0 n1 r1 n2 r2 u v w core t ->
  integrator u v w core inds vals (n0, n1, n2) None = Ok (un, vn, wn, cn) ->
  forall c, in_range (n0, n1, n2) c -> rep un vn wn cn c = t c.
Proof.
  move=> TA PR Ov Ow T KC E. apply: (integrator_exact_main TA PR Ov Ow _ _ KC E); first by rewrite /= !mul1mx.
  move=> i j k. rewrite T //. congr (_ + _). rewrite (bigD1 k) //= mxE eqxx mul1r big1 ?addr0 // => l /negbTE H.
  by rewrite mxE H mul0r.
Qed.
End Statements.
