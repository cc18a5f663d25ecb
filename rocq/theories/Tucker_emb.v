(** Proofs for the tensor half of C42: embeddings of new users and items in TIRecA. *)
From Verif Require Import Prelude Prelude_proofs Tensor_model Tensor_spec Tensor_main Matrix_model Attention_model LinAlg_model.
Set Warnings "-notation-overridden".
From mathcomp Require Import all_ssreflect all_algebra.
From Verif Require Import LinAlg_spec LinAlg_bridge LinAlg_emb Tucker_model Tucker_spec Tucker_bridge Tucker_main.
Set Implicit Arguments.
Unset Strict Implicit.
Unset Printing Implicit Defensive.
Import GRing.Theory.
Local Open Scope ring_scope.

Section Emb.
Variable R : comRingType.
Variables (qr : mat R -> res (mat R * mat R)) (normal : nat -> nat -> mat R).
Hypotheses (QR : qr_ok qr) (NRM : randn_ok normal).
Notation tget := (tget (0 : R)).

(** Rows of a matrix stacked below another one. *)
Definition stacked n c r (x f g : mat R) : Prop :=
  forall i a, (i < n + c)%N -> (a < r)%N -> mget 0 x i a = if (i < n)%N then mget 0 f i a else mget 0 g i a.

Lemma col_stacked n c r (x f g : mat R) :
  mx (n + c) r x = col_mx (mx n r f) (dsubmx (mx (n + c) r g)) -> stacked n c r x f g.
Proof.
  move=> E i a Hi Ha. move/matrixP: E => /(_ (Ordinal Hi) (Ordinal Ha)). rewrite !mxE /= => ->.
  case: splitP => /= i' Ei; rewrite !mxE /= Ei ?ltn_ord //. by rewrite ltnNge leq_addr.
Qed.

Lemma zero_rows_ok n c r f : shape n r f ->
  exists2 x, zero_rows (0 : R) f c = Ok x & shape (n + c) r x /\ stacked n c r x f (zeros 0 (n + c) r).
Proof.
  move=> Hf. rewrite /zero_rows plusE. case: (Hf) => -> ->. have [Hz Ez] := zeros_ok R (n + c) r.
  have [d -> [Hd Ed]] := below_ok Hf Hz. exists d => //. split => //. exact: col_stacked.
Qed.

Variables (n0 r0 n1 r1 n2 r2 c : nat) (u v w : mat R) (core : ten R).
Hypotheses (Hu : shape n0 r0 u) (Hv : shape n1 r1 v) (Hw : shape n2 r2 w).

Lemma rep_row0 u' (i j k i' : nat) : (i < i')%N -> shape i' r0 u' ->
  forall (x : mat R), (forall a, (a < r0)%N -> mget 0 u' i a = mget 0 x i a) -> (exists m, shape m r0 x) ->
  rep u' v w core (i, j, k) = rep x v w core (i, j, k).
Proof.
  move=> _ Hu' x H [m Hx]. rewrite (repE _ _ _ _ Hu' Hv Hw) (repE _ _ _ _ Hx Hv Hw).
  by apply: eq_bigr => a _; rewrite H.
Qed.

Lemma rep_row1 v' (i j k j' : nat) : (j < j')%N -> shape j' r1 v' ->
  forall (x : mat R), (forall a, (a < r1)%N -> mget 0 v' j a = mget 0 x j a) -> (exists m, shape m r1 x) ->
  rep u v' w core (i, j, k) = rep u x w core (i, j, k).
Proof.
  move=> _ Hv' x H [m Hx]. rewrite (repE _ _ _ _ Hu Hv' Hw) (repE _ _ _ _ Hu Hx Hw).
  by apply: eq_bigr => a _; apply: eq_bigr => b _; rewrite H.
Qed.

Lemma zeros_get m n i j : (i < m)%N -> (j < n)%N -> mget 0 (zeros (0 : R) m n) i j = 0.
Proof. by move=> Hi Hj; rewrite /zeros build_mget. Qed.

Lemma tucker_zero_main mode :
  exists u2 v2, tucker_add_zero (0 : R) mode c u v = Ok (u2, v2) /\
  match mode with
  | EUsers => [/\ shape (n0 + c) r0 u2, v2 = v
      & forall i j k, (i < n0 + c)%N ->
          rep u2 v w core (i, j, k) = if (i < n0)%N then rep u v w core (i, j, k) else 0]
  | EItems => [/\ u2 = u, shape (n1 + c) r1 v2
      & forall i j k, (j < n1 + c)%N ->
          rep u v2 w core (i, j, k) = if (j < n1)%N then rep u v w core (i, j, k) else 0]
  end.
Proof.
  case: mode; rewrite /=.
  - have [x -> [Hx S]] := zero_rows_ok c Hu. exists x, v; split => //; split => // i j k Hi.
    case: (ltnP i n0) => H.
      apply: (rep_row0 (i' := n0 + c) _ _ Hi Hx); last by exists n0.
      by move=> a Ha; rewrite S // H.
    rewrite (repE _ _ _ _ Hx Hv Hw). apply: big1 => a _. apply: big1 => b _. apply: big1 => d _.
    by rewrite S // ltnNge H /= zeros_get // mulr0 !mul0r.
  - have [x -> [Hx S]] := zero_rows_ok c Hv. exists u, x; split => //; split => // i j k Hj.
    case: (ltnP j n1) => H.
      apply: (rep_row1 (j' := n1 + c) _ _ Hj Hx); last by exists n1.
      by move=> a Ha; rewrite S // H.
    rewrite (repE _ _ _ _ Hu Hx Hw). apply: big1 => a _. apply: big1 => b _. apply: big1 => d _.
    by rewrite S // ltnNge H /= zeros_get // mulr0 mul0r.
Qed.

Hypotheses (W : twf core) (SH : tshape core = (r0, r1, r2)).

Lemma tucker_random_main mode : (r0 <= n0)%N -> (r1 <= n1)%N ->
  match tucker_add_random 0 +%R *%R qr normal mode c u v core with
  | Err e => exists x, qr x = Err e
  | Ok (u2, v2, core2) =>
    [/\ twf core2, tshape core2 = (r0, r1, r2) &
    match mode with
    | EUsers => [/\ shape (n0 + c) r0 u2, v2 = v, (mx (n0 + c) r0 u2)^T *m mx (n0 + c) r0 u2 = 1%:M
        & forall i j k, (i < n0 + c)%N -> (j < n1)%N -> (k < n2)%N ->
            rep u2 v w core2 (i, j, k)
            = if (i < n0)%N then rep u v w core (i, j, k) else rep (normal (n0 + c)%N r0) v w core (i, j, k)]
    | EItems => [/\ u2 = u, shape (n1 + c) r1 v2, (mx (n1 + c) r1 v2)^T *m mx (n1 + c) r1 v2 = 1%:M
        & forall i j k, (i < n0)%N -> (j < n1 + c)%N -> (k < n2)%N ->
            rep u v2 w core2 (i, j, k)
            = if (j < n1)%N then rep u v w core (i, j, k) else rep u (normal (n1 + c)%N r1) w core (i, j, k)]
    end]
  end.
Proof.
  move=> L0 L1; case: mode; rewrite /=.
  - have := random_rows_main QR NRM c Hu. case: (random_rows _ _ _ _ _) => [[t r]|e] //=.
    have -> : minn (n0 + c) r0 = r0 by apply/minn_idPr; apply: leq_trans L0 (leq_addr _ _).
    move=> [Ht Hr Ot Et].
    have [c0i -> [Hc Ec]] := unfold_ok (nn := r0) (na := r1) (nb := r2) W mode_0 (ltac:(by rewrite SH)) (ltac:(by rewrite SH)) (ltac:(by rewrite SH)).
    rewrite /=. have [c' Ec'' [Hc' Ec']] := dot_ok Hr Hc. rewrite Ec'' /=.
    have [core' -> [W' S' E']] := fold_ok (sh := tshape core) (dot_mwf Ec'') mode_0 (ltac:(by rewrite SH)) (ltac:(by rewrite SH)) (ltac:(by rewrite SH)) Hc'.
    rewrite /=. split; [by []|by rewrite S'|split => //].
    move=> i j k Hi Hj Hk.
    set x := build (n0 + c) r0 (fun i a => if (i < n0)%N then mget 0 u i a else mget 0 (normal (n0 + c)%N r0) i a).
    have Hx : shape (n0 + c) r0 x by [].
    have Ex : mx (n0 + c) r0 x = mx (n0 + c) r0 t *m mx r0 r0 r.
      rewrite Et mx_build. apply/matrixP => p q; rewrite !mxE. case: splitP => p' Ep; rewrite !mxE /= Ep ?ltn_ord //.
    have Q : unf 0 1 (n0 + c) n1 n2 (rep t v w core') = unf 0 1 (n0 + c) n1 n2 (rep x v w core).
      by rewrite (rep_unf0 _ Ht Hv Hw) (rep_unf0 _ Hx Hv Hw) E' Ec' Ec Ex !mulmxA.
    rewrite [LHS](unf_inj Q Hi Hj Hk) -/(place _ _ _ _ _).
    case: ifP => H; apply: (rep_row0 (i' := n0 + c) _ _ Hi Hx); try (by eexists; apply: Hu); try (by eexists; apply: NRM);
      by move=> a Ha; rewrite build_mget // H.
  - have := random_rows_main QR NRM c Hv. case: (random_rows _ _ _ _ _) => [[t r]|e] //=.
    have -> : minn (n1 + c) r1 = r1 by apply/minn_idPr; apply: leq_trans L1 (leq_addr _ _).
    move=> [Ht Hr Ot Et].
    have [c0i -> [Hc Ec]] := unfold_ok (nn := r1) (na := r0) (nb := r2) W mode_1 (ltac:(by rewrite SH)) (ltac:(by rewrite SH)) (ltac:(by rewrite SH)).
    rewrite /=. have [c' Ec'' [Hc' Ec']] := dot_ok Hr Hc. rewrite Ec'' /=.
    have [core' -> [W' S' E']] := fold_ok (sh := tshape core) (dot_mwf Ec'') mode_1 (ltac:(by rewrite SH)) (ltac:(by rewrite SH)) (ltac:(by rewrite SH)) Hc'.
    rewrite /=. split; [by []|by rewrite S'|split => //].
    move=> i j k Hi Hj Hk.
    set x := build (n1 + c) r1 (fun i a => if (i < n1)%N then mget 0 v i a else mget 0 (normal (n1 + c)%N r1) i a).
    have Hx : shape (n1 + c) r1 x by [].
    have Ex : mx (n1 + c) r1 x = mx (n1 + c) r1 t *m mx r1 r1 r.
      rewrite Et mx_build. apply/matrixP => p q; rewrite !mxE. case: splitP => p' Ep; rewrite !mxE /= Ep ?ltn_ord //.
    have Q : unf 1 0 (n1 + c) n0 n2 (rep u t w core') = unf 1 0 (n1 + c) n0 n2 (rep u x w core).
      by rewrite (rep_unf1 _ Hu Ht Hw) (rep_unf1 _ Hu Hx Hw) E' Ec' Ec Ex !mulmxA.
    rewrite [LHS](unf_inj Q Hj Hi Hk) -/(place _ _ _ _ _).
    case: ifP => H; apply: (rep_row1 (j' := n1 + c) _ _ Hj Hx); try (by eexists; apply: Hv); try (by eexists; apply: NRM);
      by move=> a Ha; rewrite build_mget // H.
Qed.
End Emb.
