(** ga_satf and rp_hooi from their arguments. *)
From Verif Require Import Prelude Tensor_model Tensor_spec Matrix_model Attention_model LinAlg_model Hooi_model Hooi_dot.
Set Warnings "-notation-overridden".
From mathcomp Require Import all_ssreflect all_algebra.
From Verif Require Import LinAlg_spec LinAlg_bridge Tucker_spec Tucker_bridge Hooi_spec Hooi_bridge Hooi_main Hooi_ident.
Set Implicit Arguments.
Unset Strict Implicit.
Unset Printing Implicit Defensive.
Import GRing.Theory.
Local Open Scope ring_scope.
Local Arguments set_factor : simpl never.
Local Arguments factor : simpl never.
Local Arguments Hooi_model.init_factor : simpl never.

Lemma rank_validE r0 r1 r2 :
  reflect [/\ (r0 <= r1 * r2)%N, (r1 <= r0 * r2)%N & (r2 <= r0 * r1)%N] (rank_is_valid (r0, r1, r2)).
Proof. rewrite /rank_is_valid /= !leb_leq !multE andbT. by apply: (iffP and3P). Qed.

Section Run.
Variable R : comRingType.
Variables (qr : mat R -> res (mat R * mat R)) (rand : nat -> nat -> nat -> mat R).
Variable rsvd : nat -> mat R -> nat -> res (mat R * list R * mat R).
Hypothesis QR : qr_ok qr.
Hypothesis RAND : forall m, randn_ok (rand m).
Hypothesis INNER : inner_ok rsvd.
Variables (N C : Type) (norm : ten R -> N) (norm0 : N) (grew : N -> N -> bool).
Notation mget := (Tensor_model.mget (0 : R)).
Notation init_factor := (Hooi_model.init_factor qr rand true).

Lemma init_factor_ok n r mode sh rank : axis sh mode = n -> axis rank mode = r ->
  match init_factor sh rank mode with
  | Err e => exists x, qr x = Err e
  | Ok f => shape n (minn n r) f /\ exists s, qr (rand mode n r) = Ok (f, s)
  end.
Proof.
  move=> <- <-. rewrite /Hooi_model.init_factor. case E : (qr _) => [[q s]|e] /=; last by eexists; exact: E.
  have [H _ _ _] := QR E. have [E1 E2] := RAND mode (axis sh mode) (axis rank mode). rewrite E1 E2 in H.
  by split=> //; exists s.
Qed.

Section Args.
Variables (n0 r0 n1 r1 n2 r2 : nat) (inds : list cell) (vals : list R) (att : mat R) (n_iter : nat).
Variables (cb : option (@callback R C)) (init : option (@factors R)) (force : bool) (st : C).
Notation data := (dense (List.combine inds vals)).
Notation sh := (n0, n1, n2).
Notation rank := (r0, r1, r2).
Notation ga_satf := (Hooi_model.ga_satf (0 : R) +%R *%R qr rand rsvd norm norm0 grew inds vals sh rank att n_iter cb init force st).

Lemma start_none n r mode (q : mat R) s : qr (rand mode n r) = Ok (q, s) -> shape n r q -> start_factor qr rand mode n r None q.
Proof. by move=> E S; split=> //; exists q, s. Qed.

Lemma start_some n r mode (q s x : mat R) : qr (rand mode n r) = Ok (q, s) -> shape n r q ->
  (mr x <= n)%N -> mc x = r -> exists2 f, overlay 0 q x = Ok f & start_factor qr rand mode n r (Some x) f.
Proof.
  move=> E S L Hc. have [f Ef [Sf Pf]] := overlay_ok S L Hc. exists f => //. split=> //. exists q, s. by split.
Qed.

Lemma ga_run_main : hooi_args n0 r0 n1 r1 n2 r2 inds vals -> shape n2 n2 att ->
  (if init is Some xs then [/\ (mr (factor xs 0) <= n0)%N /\ mc (factor xs 0) = r0,
                               (mr (factor xs 1) <= n1)%N /\ mc (factor xs 1) = r1
                             & (mr (factor xs 2) <= n2)%N /\ mc (factor xs 2) = r2] else True) ->
  match ga_satf with
  | Err e => (exists x, qr x = Err e) \/ (exists t x r, rsvd t x r = Err e)
             \/ (exists c s f g, [/\ force = false, cb = Some c & c s f g = Err e])
  | Ok (fs, core, st') => exists k F G S,
     [/\ start qr rand n0 r0 n1 r1 n2 r2 init (F 0%N), S 0%N = st,
         run norm norm0 grew cb force (sweep n0 r0 n1 r1 r2 data (mx n2 n2 att) rsvd) n_iter k F G S
       & [/\ fs = F k, core = (if k is 0 then None else Some (G k)), st' = S k
         & (0 < k)%N -> [/\ shape n0 r0 (factor fs 0), shape n1 r1 (factor fs 1), shape n2 r2 (factor fs 2)
             & [/\ orthonormal n0 r0 (factor fs 0), orthonormal n1 r1 (factor fs 1) & orthonormal n2 r2 (factor fs 2)]]]]
  end.
Proof.
  move=> ARGS ATT INIT. have [[L0 L1 L2] [V _]] := ARGS.
  rewrite /Hooi_model.ga_satf /check_params (introT (rank_validE r0 r1 r2) V) /= /init_factors.
  have := init_factor_ok (mode := 0) (erefl : axis sh 0 = n0) (erefl : axis rank 0 = r0).
  case: (init_factor _ _ _) => [f0|e] /=; last by left. rewrite (minn_idPr L0) => -[S0 [s0 Q0]].
  have := init_factor_ok (mode := 1) (erefl : axis sh 1 = n1) (erefl : axis rank 1 = r1).
  case: (init_factor _ _ _) => [f1|e] /=; last by left. rewrite (minn_idPr L1) => -[S1 [s1 Q1]].
  have := init_factor_ok (mode := 2) (erefl : axis sh 2 = n2) (erefl : axis rank 2 = r2).
  case: (init_factor _ _ _) => [f2|e] /=; last by left. rewrite (minn_idPr L2) => -[S2 [s2 Q2]].
  have [fs [-> ST]] : exists fs, match init with
      | Some xs => (do g0 <- overlay 0 f0 (factor xs 0); do g1 <- overlay 0 f1 (factor xs 1);
                    do g2 <- overlay 0 f2 (factor xs 2); Ok (g0, g1, g2))
      | None => Ok (f0, f1, f2) end = Ok fs /\ start qr rand n0 r0 n1 r1 n2 r2 init fs.
    case: init INIT => [xs|_].
      move=> [[La Ca] [Lb Cb] [Lc Cc]].
      have [g0 -> P0] := start_some Q0 S0 La Ca. have [g1 -> P1] := start_some Q1 S1 Lb Cb.
      have [g2 -> P2] := start_some Q2 S2 Lc Cc. by exists (g0, g1, g2).
    exists (f0, f1, f2). split=> //. split; [exact: start_none Q0 S0|exact: start_none Q1 S1|exact: start_none Q2 S2].
  rewrite /=. case: (ST) => _ [H1 _] [H2 _].
  have := ga_loop_ok INNER norm grew ARGS ATT cb force n_iter 0 None norm0 st H1 H2.
  case: (ga_loop _ _ _ _ _ _ _ _ _ _ _ _ _ _ _ _ _ _ _) => [[[fs' core] st']|e]; last by move=> H; right.
  move=> [k [F [G [S [F0 E0 RUN [E1 E2 E3 E4]]]]]]. exists k, F, G, S. split=> //; first by rewrite F0.
  split=> // /E4 [[H3 H4 H5] OR _]. by split.
Qed.

(** What goes wrong otherwise. *)
Lemma ga_shape_main L : (0 < n0)%N -> (0 < n1)%N -> (0 < n2)%N -> (0 < r0)%N -> (0 < r1)%N -> (0 < r2)%N ->
  length vals = length inds -> List.Forall (in_range sh) inds -> shape L L att -> (0 < n_iter)%N -> init = None ->
  match ga_satf with
  | Ok _ => [/\ rank_is_valid rank, (r0 <= n0)%N, (r1 <= n1)%N, (r2 <= n2)%N & L = n2]
  | Err e => (exists x, qr x = Err e) \/ (exists t x r, rsvd t x r = Err e)
             \/ (exists c s f g, [/\ force = false, cb = Some c & c s f g = Err e])
             \/ (e = RuntimeError /\ rank_is_valid rank = false)
             \/ [/\ e = ValueError, rank_is_valid rank & ~ [/\ (r0 <= n0)%N, (r1 <= n1)%N, (r2 <= n2)%N & L = n2]]
  end.
Proof.
  move=> P0 P1 P2 Q0 Q1 Q2 LV FR ATT NI IN.
  have [V|V] := boolP (rank_is_valid rank); last by rewrite /Hooi_model.ga_satf /check_params (negbTE V); do 3 right; left.
  have V' := elimT (rank_validE r0 r1 r2) V.
  have [/andP [/and3P [L0 L1 L2] /eqP EL]|NG] := boolP ([&& (r0 <= n0)%N, (r1 <= n1)%N & (r2 <= n2)%N] && (L == n2)).
    subst L. have := @ga_run_main (conj (And3 L0 L1 L2) (conj V' (conj LV FR))) ATT. rewrite IN => /(_ I).
    case: Hooi_model.ga_satf => [[[]]|e] //. by tauto.
  have {}NG : ~ [/\ (r0 <= n0)%N, (r1 <= n1)%N, (r2 <= n2)%N & L = n2].
    by move=> [L0 L1 L2 EL]; case/negP: NG; rewrite L0 L1 L2 EL eqxx.
  rewrite /Hooi_model.ga_satf /check_params V /= /init_factors IN.
  have := init_factor_ok (mode := 0) (erefl : axis sh 0 = n0) (erefl : axis rank 0 = r0).
  case: (init_factor _ _ _) => [f0|e] /=; last by left. move=> [S0 [s0 _]].
  have := init_factor_ok (mode := 1) (erefl : axis sh 1 = n1) (erefl : axis rank 1 = r1).
  case: (init_factor _ _ _) => [f1|e] /=; last by left. move=> [S1 [s1 _]].
  have := init_factor_ok (mode := 2) (erefl : axis sh 2 = n2) (erefl : axis rank 2 = r2).
  case: (init_factor _ _ _) => [f2|e] /=; last by left. move=> [S2 [s2 _]].
  case: n_iter NI => // ni _ /=.
  have [EL|EL] := eqVneq L n2; last first.
    by rewrite dot_err ?(proj2 ATT) ?(proj1 S2) /=; [do 4 right|apply/eqP].
  subst L. have [w -> [Hw _]] := dot_ok ATT S2. rewrite /=.
  rewrite /Hooi_model.ga_mode /=. set fs0 := set_factor _ 2 w.
  have H1 : shape n1 (minn n1 r1) (factor fs0 1) by [].
  have [/andP [L1 L2]|NL] := boolP ((r1 <= n1)%N && (r2 <= n2)%N); last first.
    rewrite (contraction_bad (nn := n0) (fs := fs0) mode_0 (erefl : axis sh 0 = n0) erefl erefl _ H1 Hw LV FR) /=; first by do 4 right.
    move/eqP; rewrite eqn_pmul2l // => /eqP E. case/negP: NL.
    have := leq_mul (geq_minr n1 r1) (leqnn (minn n2 r2)). rewrite E.
    have := leq_mul (leqnn (minn n1 r1)) (geq_minr n2 r2). rewrite E.
    rewrite leq_pmul2r // leq_pmul2l // !leq_min. by move=> /andP [-> _] /andP [-> _].
  rewrite (minn_idPr L1) in H1. rewrite (minn_idPr L2) in Hw.
  have [m0 -> [_ Pm]] := contraction_ok (rank := rank) (fs := fs0) mode_0 (erefl : axis sh 0 = n0) erefl erefl erefl erefl H1 Hw LV FR.
  rewrite /=. case E0 : (rsvd _ m0 r0) => [[[u0 x0] vt0]|e] /=; last by right; left; eexists _, _, _; exact: E0.
  have [Hu _] := INNER E0. case: (Pm) => [[Em1 Em2] _]. rewrite Em1 Em2 in Hu.
  set fs1 := set_factor fs0 0 _.
  have L0 : ~~ (r0 <= n0)%N by apply/negP => L0; apply: NG.
  have Hf : shape n0 (minn r0 (minn n0 (r1 * r2))) (factor fs1 0) by have [H _] := reverse_ok Hu.
  rewrite (contraction_bad (nn := n1) (fs := fs1) mode_1 (erefl : axis sh 1 = n1) erefl erefl _ Hf Hw LV FR) /=; first by do 4 right.
  move/eqP; rewrite eqn_pmul2l // eqn_pmul2r // => /eqP E. case/negP: L0.
  apply: (@leq_trans (minn n0 (r1 * r2))); last exact: geq_minl. by rewrite -{1}(E : _ = r0) geq_minr.
Qed.
End Args.

End Run.

(** rp_hooi is a run without attention. *)
Lemma rp_run_main (R : comRingType) (qr : mat R -> res (mat R * mat R)) rand rsvd : qr_ok qr -> (forall m, randn_ok (rand m)) -> inner_ok rsvd ->
  forall (N : Type) (norm : ten R -> N) norm0 grew n0 r0 n1 r1 n2 r2 inds vals n_iter, hooi_args n0 r0 n1 r1 n2 r2 inds vals ->
  match rp_hooi (0 : R) +%R *%R qr rand rsvd norm norm0 grew inds vals (n0, n1, n2) (r0, r1, r2) n_iter with
  | Err e => (exists x, qr x = Err e) \/ (exists t x r, rsvd t x r = Err e)
  | Ok (fs, core) => exists k F G (S : nat -> unit),
     [/\ start qr rand n0 r0 n1 r1 n2 r2 None (F 0%N),
         run norm norm0 grew None false (sweep n0 r0 n1 r1 r2 (dense (List.combine inds vals)) (1%:M : 'M_n2) rsvd) n_iter k F G S
       & [/\ fs = F k, core = (if k is 0 then None else Some (G k))
         & (0 < k)%N -> [/\ shape n0 r0 (factor fs 0), shape n1 r1 (factor fs 1), shape n2 r2 (factor fs 2)
             & [/\ orthonormal n0 r0 (factor fs 0), orthonormal n1 r1 (factor fs 1) & orthonormal n2 r2 (factor fs 2)]]]]
  end.
Proof.
  move=> QR RAND INNER N norm norm0 grew n0 r0 n1 r1 n2 r2 inds vals n_iter ARGS.
  have Q x q r : qr x = Ok (q, r) -> mr q = mr x by move=> /QR [[]].
  have RN m n r : mr (rand m n r) = n by have [] := RAND m n r.
  have IN t x r u s vt : rsvd t x r = Ok (u, s, vt) -> mr u = mr x by move=> /INNER [[]].
  have E := ga_identity_main Q RN IN norm norm0 grew n0 n1 n2 (r0, r1, r2) inds vals n_iter tt.
  have [Se Ee] := @eye_ok R n2.
  have := ga_run_main QR RAND INNER norm norm0 grew n_iter None (init := None) false tt ARGS Se I.
  rewrite E Ee. case: rp_hooi => [[fs core]|e] /=.
    move=> [k [F [G [S [H1 _ H2 [H3 H4 _ H5]]]]]]. by exists k, F, G, S.
  by move=> [|[|[c [s [f [g [_ H _]]]]]]]; [left|right|].
Qed.
