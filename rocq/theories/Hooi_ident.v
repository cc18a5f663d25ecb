(** ga_satf with the identity attention is rp_hooi; ga_satf from its arguments. *)
From Verif Require Import Prelude Tensor_model Tensor_spec Matrix_model Attention_model LinAlg_model Hooi_model Hooi_dot.
Set Warnings "-notation-overridden".
From mathcomp Require Import all_ssreflect all_algebra.
From Verif Require Import LinAlg_spec LinAlg_bridge Tucker_spec Tucker_bridge Hooi_spec Hooi_bridge Hooi_main.
Set Implicit Arguments.
Unset Strict Implicit.
Unset Printing Implicit Defensive.
Import GRing.Theory.
Local Open Scope ring_scope.
Local Arguments set_factor : simpl never.
Local Arguments factor : simpl never.

Section Ident.
Variable R : comRingType.
Variables (qr : mat R -> res (mat R * mat R)) (rand : nat -> nat -> nat -> mat R).
Variable rsvd : nat -> mat R -> nat -> res (mat R * list R * mat R).
Hypothesis QR : forall x q r, qr x = Ok (q, r) -> mr q = mr x.
Hypothesis RAND : forall m n r, mr (rand m n r) = n.
Hypothesis INNER : forall t x r u s vt, rsvd t x r = Ok (u, s, vt) -> mr u = mr x.
Variables (N C : Type) (norm : ten R -> N) (norm0 : N) (grew : N -> N -> bool).
Notation mget := (Tensor_model.mget (0 : R)).
Notation dot := (Matrix_model.dot (0 : R) +%R *%R).
Notation contraction := (Hooi_model.contraction (0 : R) +%R *%R).
Notation transpose := (Attention_model.transpose (0 : R)).
Notation eye := (Attention_model.eye (0 : R) 1).
Notation ga_mode := (Hooi_model.ga_mode (0 : R) +%R *%R rsvd).
Notation rp_mode := (Hooi_model.rp_mode (0 : R) +%R *%R rsvd).

Lemma eye_dot n (m : mat R) : mr m = n ->
  exists2 w, dot (eye n) m = Ok w & [/\ mwf w, mr w = n, mc w = mc m & forall i j, (i < n)%N -> (j < mc m)%N -> mget w i j = mget m i j].
Proof.
  move=> Hn. have [Se Ee] := @eye_ok R n. have [w Ew [[S1 S2] P]] := dot_ok Se (conj Hn (erefl (mc m))).
  exists w => //. split=> //; first exact: dot_mwf Ew.
  move=> i j Hi Hj. have := congr1 (fun M : 'M[R]_(n, mc m) => M (Ordinal Hi) (Ordinal Hj)) P.
  by rewrite Ee mul1mx !mxE.
Qed.

Lemma eye_dot_wf n (m : mat R) : mwf m -> mr m = n -> dot (eye n) m = Ok m.
Proof.
  move=> W Hn. have [w -> [Ww H1 H2 E]] := eye_dot Hn. congr Ok. apply: (mat_ext (0 : R) w m) => //; first by rewrite H1.
  by move=> i j; rewrite H1 H2 => /ltP Hi /ltP Hj; apply: E.
Qed.

Lemma transpose_eye n : transpose (eye n) = eye n.
Proof.
  have [Se Ee] := @eye_ok R n. have [St Et] := transpose_ok Se.
  apply: (mat_ext (0 : R)); [exact: mwf_build|exact: mwf_build|by []|by []|].
  move=> i j; rewrite (proj1 St) (proj2 St) => /ltP Hi /ltP Hj.
  have := congr1 (fun M : 'M[R]_n => M (Ordinal Hi) (Ordinal Hj)) Et.
  have := congr1 (fun M : 'M[R]_n => M (Ordinal Hj) (Ordinal Hi)) Ee.
  have := congr1 (fun M : 'M[R]_n => M (Ordinal Hi) (Ordinal Hj)) Ee.
  rewrite /= !mxE => E1 E2 ->. by rewrite E1 E2 eq_sym.
Qed.

Lemma contraction_wf inds vals sh rank fs n (m : mat R) : (n < 3)%N ->
  contraction inds vals sh rank fs n = Ok m -> mwf m /\ mr m = axis sh n.
Proof.
  move=> Hn. rewrite /Hooi_model.contraction. case E : (others n) => [a b].
  case T : (tensordot2 _ _ _ _ _ _ _ _ _ _) => [t|] //= .
  have [W _] := tensordot2_wf (0 : R) +%R *%R _ _ _ _ _ _ _ _ T.
  rewrite /reshape32 eqb_eqn. case: eqP => // Es [<-]. split=> //.
  by rewrite /mwf /= W -Es.
Qed.

Lemma contraction_ext inds vals sh rank fs (w : mat R) n : (n < 2)%N ->
  mr w = mr (factor fs 2) -> mc w = mc (factor fs 2) ->
  (forall i j, (i < mr w)%N -> (j < mc w)%N -> mget w i j = mget (factor fs 2) i j) ->
  contraction inds vals sh rank (set_factor fs 2 w) n = contraction inds vals sh rank fs n.
Proof.
  move=> Hn E1 E2 E. rewrite /Hooi_model.contraction.
  case: n Hn => [|[|n]] //= _; rewrite (tensordot2_ext (0 : R) +%R *%R inds vals sh _ _ (factor fs 2) _ _ E1 E2) //;
    by move=> i j /ltP Hi /ltP Hj; apply: E.
Qed.

Section Loop.
Variables (n0 n1 n2 : nat) (rank : cell) (inds : list cell) (vals : list R).
Notation sh := (n0, n1, n2).

Lemma mode01 i n fs (w : mat R) : (n < 2)%N -> dot (eye n2) (factor fs 2) = Ok w -> mr (factor fs 2) = n2 ->
  ga_mode inds vals sh rank (eye n2) i n (set_factor fs 2 w) =
  (do f <- rp_mode inds vals sh rank i n fs; Ok (set_factor f 2 w)).
Proof.
  move=> Hn Ew Hr. have [w' Ew' [_ S1 S2 E]] := eye_dot Hr. move: Ew; rewrite Ew' => -[Ew]; subst w'.
  rewrite /Hooi_model.ga_mode /Hooi_model.rp_mode contraction_ext ?S1 ?S2 //.
  case: (contraction _ _ _ _ _ _) => //= m. rewrite eqb_eqn (ltn_eqF Hn) /=.
  case: (rsvd _ _ _) => //= -[[u s] vt] /=. by case: (n) Hn => [|[|]].
Qed.

Lemma mode2 i fs (w : mat R) : ga_mode inds vals sh rank (eye n2) i 2 (set_factor fs 2 w) = rp_mode inds vals sh rank i 2 fs.
Proof.
  rewrite /Hooi_model.ga_mode /Hooi_model.rp_mode.
  have -> : contraction inds vals sh rank (set_factor fs 2 w) 2 = contraction inds vals sh rank fs 2 by [].
  case E : (contraction _ _ _ _ _ _) => [m|e] //=. have [W S] := contraction_wf (isT : (2 < 3)%N) E.
  rewrite transpose_eye (eye_dot_wf W) //=.
Qed.

Lemma rp_mode2_rows i fs fs' : rp_mode inds vals sh rank i 2 fs = Ok fs' -> mr (factor fs' 2) = n2 /\ mwf (factor fs' 2).
Proof.
  rewrite /Hooi_model.rp_mode. case E : (contraction _ _ _ _ _ _) => [m|] //=. have [_ S] := contraction_wf (isT : (2 < 3)%N) E.
  case Er : (rsvd _ _ _) => [[[u s] vt]|] //= [<-]. split; last exact: mwf_build.
  by rewrite -[RHS]S -(INNER Er).
Qed.
Lemma rp_mode_rows i n fs fs' : (n < 2)%N -> rp_mode inds vals sh rank i n fs = Ok fs' -> factor fs' 2 = factor fs 2.
Proof.
  rewrite /Hooi_model.rp_mode => Hn. case E : (contraction _ _ _ _ _ _) => [m|] //=.
  case Er : (rsvd _ _ _) => [[[u s] vt]|] //= [<-]. by case: (n) Hn => [|[|]].
Qed.

Lemma loop_ident left : forall i fs core old st, mr (factor fs 2) = n2 ->
  Hooi_model.ga_loop (0 : R) +%R *%R rsvd norm grew inds vals sh rank (eye n2) None false left i fs core old (st : C)
  = (do r <- Hooi_model.rp_loop (0 : R) +%R *%R rsvd norm grew inds vals sh rank left i fs core old; Ok (r, st)).
Proof.
  elim: left => [|left IH] i fs core old st Hr //=.
  have [w Ew [_ S1 S2 E]] := eye_dot Hr. rewrite Ew /= (mode01 i (isT : (0 < 2)%N) Ew Hr).
  case E0 : (rp_mode _ _ _ _ _ _ _) => [fa|e] //=. have Ra := rp_mode_rows (isT : (0 < 2)%N) E0. rewrite -Ra in Ew Hr.
  rewrite (mode01 i (isT : (1 < 2)%N) Ew Hr).
  case E1 : (rp_mode _ _ _ _ _ _ _) => [fb|e] //=. rewrite mode2.
  case E2 : (rp_mode _ _ _ _ _ _ _) => [fc|e] //=. have [Rc Wc] := rp_mode2_rows E2.
  rewrite eye_dot_wf //=. case: (construct_core _ _ _ _ _ _ _ _) => //= cr.
  by case: (grew _ _); first by rewrite IH.
Qed.

Lemma ga_identity_main n_iter (st : C) :
  ga_satf 0 +%R *%R qr rand rsvd norm norm0 grew inds vals sh rank (eye n2) n_iter None None false st
  = (do r <- rp_hooi 0 +%R *%R qr rand rsvd norm norm0 grew inds vals sh rank n_iter; Ok (r, st)).
Proof.
  rewrite /ga_satf /rp_hooi. case: (check_params rank) => //= _. rewrite /init_factors /init_factor /=.
  case: (qr _) => //= -[q0 s0] /=. case: (qr _) => //= -[q1 s1] /=. case E : (qr _) => [[q2 s2]|e] //=.
  by apply: loop_ident; rewrite /factor /= (QR E) RAND.
Qed.
End Loop.
End Ident.
