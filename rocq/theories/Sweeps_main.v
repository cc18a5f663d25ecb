(** More sweeps of the iterative Tucker decompositions. *)
From Verif Require Import Prelude Tensor_model Tensor_spec Matrix_model Attention_model LinAlg_model Hooi_model Hooi_dot Relerr_model.
Set Warnings "-notation-overridden".
From mathcomp Require Import all_ssreflect all_algebra.
From Verif Require Import LinAlg_spec LinAlg_bridge Tucker_spec Tucker_bridge Hooi_spec Hooi_bridge Hooi_main Hooi_ident Hooi_run
  Hooi_ascent Hooi_final Relerr_spec Relerr_main.
Set Implicit Arguments.
Unset Strict Implicit.
Unset Printing Implicit Defensive.
Import GRing.Theory Order.Theory Num.Theory.
Local Open Scope ring_scope.
Local Arguments set_factor : simpl never.
Local Arguments factor : simpl never.
Local Arguments Hooi_model.init_factor : simpl never.

Section Loop.
Variable R : comRingType.
Variable rsvd : nat -> mat R -> nat -> res (mat R * list R * mat R).
Hypothesis INNER : inner_ok rsvd.
Variables (N C : Type) (norm : ten R -> N) (norm0 : N) (grew : N -> N -> bool).
Variables (n0 r0 n1 r1 n2 r2 : nat) (inds : list cell) (vals : list R) (att : mat R).
Notation data := (dense (List.combine inds vals)).
Notation A := (mx n2 n2 att).
Hypothesis ARGS : hooi_args n0 r0 n1 r1 n2 r2 inds vals.
Hypothesis ATT : shape n2 n2 att.
Variables (cb : option (@callback R C)) (force : bool).
Notation ga_loop := (Hooi_model.ga_loop (0 : R) +%R *%R rsvd norm grew inds vals (n0, n1, n2) (r0, r1, r2) att cb force).
Notation decide := (decision norm grew cb force).

Lemma trajectory left : forall i fs core old st fs' core' st', shape n1 r1 (factor fs 1) -> shape n2 r2 (factor fs 2) ->
  ga_loop left i fs core old st = Ok (fs', core', st') -> exists k F G S,
    [/\ F 0%N = fs, S 0%N = st,
        run norm old grew cb force (fun t => sweep n0 r0 n1 r1 r2 data A rsvd (i + t)) left k F G S
      & forall l, (l <= left)%N ->
        ga_loop l i fs core old st = Ok (F (minn l k), (if minn l k is 0 then core else Some (G (minn l k))), S (minn l k))].
Proof.
  elim: left => [|left IH] i fs core old st fs' core' st' H1 H2.
    move=> _. exists 0%N, (fun _ => fs), (fun _ => mkTen (0, 0, 0)%N [::]), (fun _ => st). split=> // l. by rewrite leqn0 => /eqP ->.
  rewrite (ga_loop_step rsvd norm grew). have := ga_step_ok INNER ARGS ATT i H1 H2.
  case EG : (ga_step _ _ _ _ _ _ _ _ _ _ i fs) => [[f g]|e] //= [SW [_ GD1 GD2] _ _].
  case D : (decide old st f g) => [[s b]|e] //. case: b D => D.
    move=> _. exists 1%N, (cons_seq fs (fun _ => f)), (fun _ => g), (cons_seq st (fun _ => s)). split=> //.
    - split=> //; first by case=> // _; rewrite addn0. case=> // _. by exists true.
    - case=> [|l] _ //. rewrite minnSS minn0 (ga_loop_step rsvd norm grew) EG /=. by rewrite D.
  move=> H. have [k [F [G [S [F0 S0 RUN E]]]]] := IH _ _ _ _ _ _ _ _ GD1 GD2 H. case: (run_old RUN) => K1 K2 K3 K4.
  exists k.+1, (cons_seq fs F), (cons_seq g (fun t => if t is 0 then g else G t)), (cons_seq st S). split=> //.
    split=> //.
    - by case=> [|t] Ht /=; rewrite ?addn0 ?F0 // addnS -addSn; case: t Ht => [|t] Ht; apply: K3.
    - case=> [|t] Ht /=.
        exists false; rewrite F0 S0; split=> // _. case: (k) K2 => [|k'] K2; last by left.
        by right; case: (left) K2 => // l /(_ isT).
      have [b [Eb B1 B2]] := K4 t Ht. exists b; split.
      + by case: t Ht Eb {B1 B2} => [|t] Ht Eb.
      + by move=> Hb; rewrite B1.
      + by move=> /B2 [Hlt|->]; [left|right].
  case=> [|l] Hl //. rewrite minnSS (ga_loop_step rsvd norm grew) EG /= D E //. by case: (minn l k).
Qed.
End Loop.

Section Ga.
Variable R : comRingType.
Variables (qr : mat R -> res (mat R * mat R)) (rand : nat -> nat -> nat -> mat R).
Variable rsvd : nat -> mat R -> nat -> res (mat R * list R * mat R).
Hypothesis QR : qr_ok qr.
Hypothesis RAND : forall m, randn_ok (rand m).
Hypothesis INNER : inner_ok rsvd.
Variables (N C : Type) (norm : ten R -> N) (norm0 : N) (grew : N -> N -> bool).
Variables (n0 r0 n1 r1 n2 r2 : nat) (inds : list cell) (vals : list R) (att : mat R).
Variables (cb : option (@callback R C)) (init : option (@factors R)) (force : bool) (st : C).
Notation data := (dense (List.combine inds vals)).
Notation sh := (n0, n1, n2).
Notation rank := (r0, r1, r2).
Notation ga n := (Hooi_model.ga_satf (0 : R) +%R *%R qr rand rsvd norm norm0 grew inds vals sh rank att n cb init force st).
Notation init_factor := (Hooi_model.init_factor qr rand true).
Definition init_fits : Prop :=
  if init is Some xs then [/\ (mr (factor xs 0) <= n0)%N /\ mc (factor xs 0) = r0,
                               (mr (factor xs 1) <= n1)%N /\ mc (factor xs 1) = r1
                             & (mr (factor xs 2) <= n2)%N /\ mc (factor xs 2) = r2] else True.

Lemma ga_trajectory n r : hooi_args n0 r0 n1 r1 n2 r2 inds vals -> shape n2 n2 att -> init_fits -> ga n = Ok r ->
  exists k F G S,
  [/\ start qr rand n0 r0 n1 r1 n2 r2 init (F 0%N), S 0%N = st,
      run norm norm0 grew cb force (sweep n0 r0 n1 r1 r2 data (mx n2 n2 att) rsvd) n k F G S
    & forall l, (l <= n)%N ->
      ga l = Ok (F (minn l k), (if minn l k is 0 then None else Some (G (minn l k))), S (minn l k))].
Proof.
  move=> ARGS ATT INIT. have [[L0 L1 L2] [V _]] := ARGS.
  rewrite /Hooi_model.ga_satf /check_params (introT (rank_validE r0 r1 r2) V) /= /init_factors.
  have := init_factor_ok QR RAND (mode := 0) (erefl : axis sh 0 = n0) (erefl : axis rank 0 = r0).
  case: (init_factor _ _ _) => [f0|e] //=. rewrite (minn_idPr L0) => -[S0 [s0 Q0]].
  have := init_factor_ok QR RAND (mode := 1) (erefl : axis sh 1 = n1) (erefl : axis rank 1 = r1).
  case: (init_factor _ _ _) => [f1|e] //=. rewrite (minn_idPr L1) => -[S1 [s1 Q1]].
  have := init_factor_ok QR RAND (mode := 2) (erefl : axis sh 2 = n2) (erefl : axis rank 2 = r2).
  case: (init_factor _ _ _) => [f2|e] //=. rewrite (minn_idPr L2) => -[S2 [s2 Q2]].
  have [fs [-> ST]] : exists fs, match init with
      | Some xs => (do g0 <- overlay 0 f0 (factor xs 0); do g1 <- overlay 0 f1 (factor xs 1);
                    do g2 <- overlay 0 f2 (factor xs 2); Ok (g0, g1, g2))
      | None => Ok (f0, f1, f2) end = Ok fs /\ start qr rand n0 r0 n1 r1 n2 r2 init fs.
    move: INIT; rewrite /init_fits. case: init => [xs|_].
      move=> [[La Ca] [Lb Cb] [Lc Cc]].
      have [g0 -> P0] := start_some (qr := qr) (rand := rand) (mode := 0) Q0 S0 La Ca. have [g1 -> P1] := start_some (qr := qr) (rand := rand) (mode := 1) Q1 S1 Lb Cb.
      have [g2 -> P2] := start_some (qr := qr) (rand := rand) (mode := 2) Q2 S2 Lc Cc. by exists (g0, g1, g2).
    exists (f0, f1, f2). split=> //. split; [exact: (start_none (qr := qr) (rand := rand) (mode := 0) Q0 S0)|exact: (start_none (qr := qr) (rand := rand) (mode := 1) Q1 S1)|exact: (start_none (qr := qr) (rand := rand) (mode := 2) Q2 S2)].
  rewrite /=. case: (ST) => _ [H1 _] [H2 _]. case: r => [[fs' core'] st'].
  move=> /(trajectory INNER ARGS ATT H1 H2) [k [F [G [S [F0 E0 RUN E]]]]].
  exists k, F, G, S. by split=> //; rewrite F0.
Qed.
End Ga.

Section Order.
Variable R : realFieldType.
Variables (qr : mat R -> res (mat R * mat R)) (rand : nat -> nat -> nat -> mat R).
Variable rsvd : nat -> mat R -> nat -> res (mat R * list R * mat R).
Hypothesis QR : qr_ok qr.
Hypothesis RAND : forall m, randn_ok (rand m).
Hypothesis INNER : inner_ok rsvd.
Hypothesis OPT : optimal rsvd.
Variables (N : Type) (norm : ten R -> N) (norm0 : N) (grew : N -> N -> bool).
Variables (n0 r0 n1 r1 n2 r2 : nat) (inds : list cell) (vals : list R).
Hypothesis ARGS : hooi_args n0 r0 n1 r1 n2 r2 inds vals.
Notation data := (dense (List.combine inds vals)).
Notation sq g := (sumsq r0 r1 r2 (tget 0 g)).
Notation residual t fs g := (sumsq n0 n1 n2 (fun c => t c - rep (factor fs 0) (factor fs 1) (factor fs 2) g c)).

Lemma more_main (C : Type) att (cb : option (@callback R C)) init force st n n' fs' core' st' :
  let ga m := Hooi_model.ga_satf (0 : R) +%R *%R qr rand rsvd norm norm0 grew inds vals (n0, n1, n2) (r0, r1, r2) att m cb init force st in
  shape n2 n2 att -> init_fits n0 r0 n1 r1 n2 r2 init -> (0 < n <= n')%N -> ga n' = Ok (fs', core', st') ->
  exists fs g g' st1, [/\ ga n = Ok (fs, Some g, st1), core' = Some g', sq g <= sq g'
    & residual (attended n2 att data) fs' g' <= residual (attended n2 att data) fs g].
Proof.
  move=> ga ATT INIT /andP [P LE] E.
  have [k [F [G [S [_ _ RUN T]]]]] := ga_trajectory QR RAND INNER ARGS ATT INIT E.
  have [K1 K2 _ _] := RUN. have K := K2 (leq_trans P LE).
  have En := T n LE. have En' := T n' (leqnn _). rewrite -/(ga n) in En. rewrite -/(ga n') E (minn_idPr K1) in En'.
  have Pm : (0 < minn n k)%N by rewrite leq_min P K.
  have EG : (if minn n k is 0 then None else Some (G (minn n k))) = Some (G (minn n k)) by case: (minn n k) Pm.
  have EG' : (if k is 0 then None else Some (G k)) = Some (G k) by case: (k) K.
  rewrite EG in En. rewrite EG' in En'. case: En' => Ef Ec Es.
  have [[L0 L1 L2] [[V0 V1 V2] _]] := ARGS.
  have [ASC _] := ascent_main INNER OPT L0 L1 L2 V0 V1 V2 RUN.
  have MON t d : (0 < t)%N -> (t + d <= k)%N -> sq (G t) <= sq (G (t + d)%N).
    move=> Pt. elim: d => [|d IH]; first by rewrite addn0. rewrite addnS => H. apply: le_trans (IH (ltnW H)) (ASC _ _).
    by rewrite addn_gt0 Pt H.
  have GLE : sq (G (minn n k)) <= sq (G k).
    have := MON (minn n k) (k - minn n k)%N Pm. rewrite subnKC ?geq_minr // => H. exact: H.
  exists (F (minn n k)), (G (minn n k)), (G k), (S (minn n k)). split=> //.
  have [g [<-] [_ _ _ PY]] := ga_projects_main QR RAND INNER ARGS ATT INIT En P.
  have [g' Eg' [_ _ _ PY']] := ga_projects_main QR RAND INNER ARGS ATT INIT E (leq_trans P LE).
  move: Eg'. rewrite Ec => -[Eg']. rewrite -Eg' in PY'.
  rewrite PY in PY'. rewrite -(ler_add2l (sq (G (minn n k)))) PY'. by rewrite ler_add2r.
Qed.

Notation rp m := (Hooi_model.rp_hooi (0 : R) +%R *%R qr rand rsvd norm norm0 grew inds vals (n0, n1, n2) (r0, r1, r2) m).

Lemma more_rp_main n n' fs' core' : (0 < n <= n')%N -> rp n' = Ok (fs', core') ->
  exists fs g g', [/\ rp n = Ok (fs, Some g), core' = Some g', sq g <= sq g' & residual data fs' g' <= residual data fs g].
Proof.
  move=> H E.
  have Q x q r : qr x = Ok (q, r) -> mr q = mr x by move=> /QR [[]].
  have RN m a r : mr (rand m a r) = a by have [] := RAND m a r.
  have IN t x r u s vt : rsvd t x r = Ok (u, s, vt) -> mr u = mr x by move=> /INNER [[]].
  have ID m := ga_identity_main Q RN IN norm norm0 grew n0 n1 n2 (r0, r1, r2) inds vals m tt.
  have [Se Ee] := @eye_ok R n2.
  have E' := ID n'. rewrite E /= in E'.
  have [fs [g [g' [s [E1 E2 E3 E4]]]]] := more_main (init := None) Se I H E'.
  exists fs, g, g'. move: E1; rewrite ID. case: (Hooi_model.rp_hooi _ _ _ _ _ _ _ _ _ _ _ _ _ n) => [[fs1 c1]|] //= [-> -> _].
  split=> //. have AT c : in_range (n0, n1, n2) c -> attended n2 (Attention_model.eye 0 1 n2) data c = data c.
    move=> [_ [_ L]]. case: c L => [[a b] c] /= /ssrnat.ltP L. rewrite /attended.
    rewrite (bigD1 (Ordinal L)) //= big1 ?addr0.
      have := congr1 (fun m : 'M_n2 => m (Ordinal L) (Ordinal L)) Ee. rewrite !mxE eqxx /= => ->. by rewrite mul1r.
    move=> l NL. have := congr1 (fun m : 'M_n2 => m l (Ordinal L)) Ee. rewrite !mxE (negbTE NL) /= => ->. by rewrite mul0r.
  have RE fs0 g0 : residual (attended n2 (Attention_model.eye 0 1 n2) data) fs0 g0 = residual data fs0 g0.
    rewrite /sumsq. do 3 (apply: eq_bigr => ? _). rewrite AT; first by []. rewrite /in_range /c0 /c1 /c2 /=. split; [|split]; apply/ssrnat.ltP; exact: ltn_ord.
  by rewrite -!RE.
Qed.

(** The error of the report on data that list every cell. *)
Lemma more_error_main (sqrt : R -> R) eps n n' fs' core' : root_ok sqrt -> 0 < eps -> List.NoDup inds ->
  (forall c, in_range (n0, n1, n2) c -> List.In c inds) ->
  (0 < n <= n')%N -> rp n' = Ok (fs', core') ->
  exists fs g g' e e', [/\ rp n = Ok (fs, Some g), core' = Some g',
    tensor_error sqrt eps inds vals (factor fs 0) (factor fs 1) (factor fs 2) g = Ok e,
    tensor_error sqrt eps inds vals (factor fs' 0) (factor fs' 1) (factor fs' 2) g' = Ok e' & e' <= e].
Proof.
  move=> ROOT EPS ND ALL H E. have [P LE] := andP H.
  have [fs [g [g' [E1 E2 E3 _]]]] := more_rp_main H E.
  have [ga [e [Ega Te _ _ /(_ ALL) [Ee _]]]] := rp_error_main ROOT EPS QR RAND INNER ARGS ND E1 P.
  have [gb [e' [Egb Te' _ _ /(_ ALL) [Ee' _]]]] := rp_error_main ROOT EPS QR RAND INNER ARGS ND E (leq_trans P LE).
  move: Ega Egb. rewrite E2 => -[Ega] [Egb]. subst ga gb.
  exists fs, g, g', e, e'. split=> //. rewrite Ee Ee'. apply: ler_wpmul2r.
    by rewrite invr_ge0; apply: root_ge0 => //; apply: addr_ge0; [exact: squares_ge0|exact: ltW].
  apply: root_le => //.
    have [_ [_ [LEN RANGE]]] := ARGS. have [gg Egg [_ _ _ PY]] := rp_projects_main QR RAND INNER ARGS E (leq_trans P LE).
    move: Egg; rewrite E2 => -[->]. rewrite -(sumsq_data LEN ND RANGE) PY addrC addKr. exact: sumsq_ge0.
  by rewrite ler_add2l ler_opp2.
Qed.
End Order.
