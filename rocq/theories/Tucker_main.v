(** Proofs for C43: the integrator step by step. *)
From Verif Require Import Prelude Prelude_proofs Tensor_model Tensor_spec Tensor_main Matrix_model Attention_model LinAlg_model.
Set Warnings "-notation-overridden".
From mathcomp Require Import all_ssreflect all_algebra.
From Verif Require Import LinAlg_spec LinAlg_bridge Tucker_model Tucker_spec Tucker_bridge.
Set Implicit Arguments.
Unset Strict Implicit.
Unset Printing Implicit Defensive.
Import GRing.Theory.
Local Open Scope ring_scope.

Section Rep.
Variable R : comRingType.
Notation tget := (tget (0 : R)).

Lemma repE n0 r0 n1 r1 n2 r2 (u v w : mat R) core (i j k : nat) : shape n0 r0 u -> shape n1 r1 v -> shape n2 r2 w ->
  rep u v w core (i, j, k) = \sum_(a < r0) \sum_(b < r1) \sum_(c < r2)
    tget core (a : nat, b : nat, c : nat) * mget 0 u i a * mget 0 v j b * mget 0 w k c.
Proof.
  move=> [_ Hu] [_ Hv] [_ Hw]. rewrite /rep /tucker Hu Hv Hw /= sumn_big.
  apply: eq_bigr => a _. rewrite sumn_big. apply: eq_bigr => b _. by rewrite sumn_big.
Qed.

Section Unf.
Variables (n0 r0 n1 r1 n2 r2 : nat) (u v w : mat R) (core : ten R).
Hypotheses (Hu : shape n0 r0 u) (Hv : shape n1 r1 v) (Hw : shape n2 r2 w).

Lemma rep_unf0 : unf 0 1 n0 n1 n2 (rep u v w core)
  = mx n0 r0 u *m unf 0 1 r0 r1 r2 (tget core) *m (krn (mx n1 r1 v) (mx n2 r2 w))^T.
Proof.
  apply/matrixP => i y. rewrite -mulmxA !mxE /place /= (repE _ _ _ _ Hu Hv Hw).
  apply: eq_bigr => a _. rewrite !mxE.
  rewrite -(sum_lohi (fun b c => tget core (a : nat, b : nat, c : nat) * mget 0 u i a * mget 0 v (lo y) b * mget 0 w (hi y) c)).
  rewrite big_distrr /=. apply: eq_bigr => z _. rewrite !mxE /place /=.
  by rewrite [X in X * _ * _]mulrC -!mulrA.
Qed.

Lemma rep_unf1 : unf 1 0 n1 n0 n2 (rep u v w core)
  = mx n1 r1 v *m unf 1 0 r1 r0 r2 (tget core) *m (krn (mx n0 r0 u) (mx n2 r2 w))^T.
Proof.
  apply/matrixP => j y. rewrite -mulmxA !mxE /place /= (repE _ _ _ _ Hu Hv Hw) exchange_big /=.
  apply: eq_bigr => b _. rewrite !mxE.
  rewrite -(sum_lohi (fun a c => tget core (a : nat, b : nat, c : nat) * mget 0 u (lo y) a * mget 0 v j b * mget 0 w (hi y) c)).
  rewrite big_distrr /=. apply: eq_bigr => z _. rewrite !mxE /place /=.
  by rewrite [X in X * _]mulrC -!mulrA.
Qed.

Lemma rep_unf2 : unf 2 0 n2 n0 n1 (rep u v w core)
  = mx n2 r2 w *m unf 2 0 r2 r0 r1 (tget core) *m (krn (mx n0 r0 u) (mx n1 r1 v))^T.
Proof.
  apply/matrixP => k y. rewrite -mulmxA !mxE /place /= (repE _ _ _ _ Hu Hv Hw).
  rewrite (eq_bigr (fun a : 'I_r0 => \sum_(c < r2) \sum_(b < r1)
    tget core (a : nat, b : nat, c : nat) * mget 0 u (lo y) a * mget 0 v (hi y) b * mget 0 w k c));
    last by move=> a _; exact: exchange_big.
  rewrite exchange_big /=.
  apply: eq_bigr => c _. rewrite !mxE.
  rewrite -(sum_lohi (fun a b => tget core (a : nat, b : nat, c : nat) * mget 0 u (lo y) a * mget 0 v (hi y) b * mget 0 w k c)).
  rewrite big_distrr /=. apply: eq_bigr => z _. rewrite !mxE /place /=.
  by rewrite mulrC -!mulrA.
Qed.
End Unf.
End Rep.

Section Step.
Variable R : comRingType.
Variables (qr : mat R -> res (mat R * mat R)) (is_one : R -> bool).
Hypotheses (QR : qr_ok qr) (ONE : forall v, is_one v = true -> v = 1).
Notation tget := (tget (0 : R)).
Notation step := (integrator_step (0 : R) +%R *%R (fun x y => x - y) qr is_one).

(** The two uses of the attention matrix inside a step. *)
Lemma att_fac att i n r (u2 : mat R) : att_shape n att -> shape n r u2 ->
  exists2 u2', match att with Some a => if Nat.ltb i 2 then dot 0 +%R *%R a u2 else Ok u2 | None => Ok u2 end = Ok u2'
    & shape n r u2' /\ mx n r u2' = (if (i < 2)%N then attm n att else 1%:M) *m mx n r u2.
Proof.
  rewrite ltb_ltn. case: att => [a|] /= Ha Hu; last by exists u2 => //; split => //; case: ifP; rewrite mul1mx.
  case: ifP => _; last by exists u2 => //; rewrite mul1mx.
  by have [c -> [Hc Ec]] := dot_ok Ha Hu; exists c.
Qed.

Lemma att_data att i n k (d : mat R) : (i == 2)%N -> att_shape n att -> shape n k d ->
  exists2 d', match att with Some a => if Nat.eqb i 2 then dot 0 +%R *%R (transpose 0 a) d else Ok d | None => Ok d end = Ok d'
    & shape n k d' /\ mx n k d' = (attm n att)^T *m mx n k d.
Proof.
  rewrite eqb_eqn => ->. case: att => [a|] /= Ha Hd; last by exists d => //; rewrite trmx1 mul1mx.
  have [Ht Et] := transpose_ok Ha. have [c -> [Hc Ec]] := dot_ok Ht Hd. by exists c; rewrite ?Et in Ec *.
Qed.

Lemma att_data_other att i (d : mat R) : (i != 2)%N ->
  match att with Some a => if Nat.eqb i 2 then dot 0 +%R *%R (transpose 0 a) d else Ok d | None => Ok d end = Ok d.
Proof. rewrite eqb_eqn => /negbTE ->. by case: att. Qed.

Lemma step_main att i n a b nn rn na ra nb rb inds (vals : list R) sh f (core : ten R) u1 u2 :
  modes (BinInt.Z.of_nat i) n a b -> i = n ->
  axis sh n = nn -> axis sh a = na -> axis sh b = nb ->
  twf core -> axis (tshape core) n = rn -> axis (tshape core) a = ra -> axis (tshape core) b = rb ->
  (rn <= ra * rb)%N -> (rn <= nn)%N ->
  shape nn rn f -> shape na ra u1 -> shape nb rb u2 -> (if i == 2%N then att_shape nn att else att_shape nb att) ->
  inds <> nil -> length vals = length inds -> List.Forall (in_range sh) inds ->
  match step att inds vals sh i f core u1 u2 with
  | Err e => exists x, qr x = Err e
  | Ok (f', core', u2') =>
    [/\ shape nn rn f', twf core', tshape core' = tshape core,
        shape nb rb u2' /\ mx nb rb u2' = (if i == 2%N then 1%:M else attm nb att) *m mx nb rb u2
      & step_ok (mx nn rn f) (mx nn rn f') (unf n a rn ra rb (tget core)) (unf n a rn ra rb (tget core'))
          (if i == 2%N then (attm nn att)^T else 1%:M) (unf n a nn na nb (dense (done_entries inds vals)))
          (krn (mx na ra u1) (mx nb rb u2'))]
  end.
Proof.
  move=> M Ein Hn Ha Hb W Cn Ca Cb V1 V2 Hf H1 H2 HA NE LV FR. rewrite /integrator_step.
  have [c0i -> [Hc Ec]] := unfold_ok W M Cn Ca Cb.
  have [Ht Et] := transpose_ok Hc. cbn [bind].
  case Eq : (qr _) => [[q s]|e]; last by exists (transpose 0 c0i).
  move: (QR Eq). case: (Ht) => -> ->. have -> : minn (ra * rb) rn = rn by apply/minn_idPr.
  move=> /= [Hq Hs Pq Oq].
  have [u2' -> [H2' E2']] : exists2 u2', match att with Some a => if Nat.ltb i 2 then dot 0 +%R *%R a u2 else Ok u2 | None => Ok u2 end = Ok u2'
    & shape nb rb u2' /\ mx nb rb u2' = (if i == 2%N then 1%:M else attm nb att) *m mx nb rb u2.
    have I3 : (i < 3)%N by move: M Ein; case: {HA} i => [|[|[|i]]] // M; inversion M.
    case: eqP HA => [Ei|Ei] HA.
      exists u2; first by rewrite Ei; case: (att).
      by rewrite mul1mx.
    have [u2' -> P] := att_fac i HA H2. exists u2' => //. move: P.
    by move: I3 Ei {M Ein HA}; case: i => [|[|[|i]]].
  cbn [bind].
  have [d -> [Hd Ed]] := double_ok ONE M Hn Ha Hb Hq H1 H2' NE LV FR. cbn [bind].
  have [da -> [Hda Eda]] : exists2 da, match att with Some a => if Nat.eqb i 2 then dot 0 +%R *%R (transpose 0 a) d else Ok d | None => Ok d end = Ok da
    & shape nn rn da /\ mx nn rn da = (if i == 2%N then (attm nn att)^T else 1%:M) *m mx nn rn d.
    case: ifP HA => [E2|/negbT E2] HA; first exact: att_data.
    exists d; first exact: att_data_other. by rewrite mul1mx.
  cbn [bind]. have [Hst Est] := transpose_ok Hs.
  have [k0 -> [Hk0 Ek0]] := dot_ok Hf Hst. cbn [bind].
  have [k1 -> [Hk1 Ek1]] := madd_ok Hk0 Hda. cbn [bind].
  case Eq1 : (qr k1) => [[un sn]|e]; last by exists k1.
  move: (QR Eq1). case: (Hk1) => -> ->. have -> : minn nn rn = rn by apply/minn_idPr.
  move=> /= [Hun Hsn Pun Oun].
  have [Hunt Eunt] := transpose_ok Hun.
  have [p -> [Hp Ep]] := dot_ok Hunt Hda. cbn [bind].
  have [s1 -> [Hs1 Es1]] := msub_ok Hsn Hp. cbn [bind].
  have [Hqt Eqt] := transpose_ok Hq.
  have [c' Ec'' [Hc' Ec']] := dot_ok Hs1 Hqt. rewrite Ec''. cbn [bind].
  have [core' -> [W' S' E']] := fold_ok (dot_mwf Ec'') M Cn Ca Cb Hc'. cbn [bind].
  split => //.
  have Eu : unf n a rn ra rb (tget core) = (mx rn rn s)^T *m (mx (ra * rb) rn q)^T.
    by rewrite -Ec -[LHS]trmxK -Et -Pq trmx_mul.
  have K : mx nn rn f *m unf n a rn ra rb (tget core) *m mx (ra * rb) rn q = mx nn rn k0.
    by rewrite Eu !mulmxA -mulmxA Oq mulmx1 Ek0 Est.
  have DD : (if i == 2%N then (attm nn att)^T else 1%:M) *m unf n a nn na nb (dense (done_entries inds vals))
      *m krn (mx na ra u1) (mx nb rb u2') *m mx (ra * rb) rn q = mx nn rn da by rewrite Eda Ed !mulmxA.
  exists (mx (ra * rb) rn q). rewrite K DD -Ek1. split => //.
  - by rewrite Eu -(mulmxA _ (mx (ra * rb) rn q)^T (mx (ra * rb) rn q)) Oq mulmx1.
  - by rewrite -{1}Pun !mulmxA -(mulmxA (mx nn rn un)) Oun mulmx1 Pun.
  - rewrite E' Ec' Es1 Eqt Ep Eunt !mulmxBl mulmxBr !mulmxA. rewrite Pun Ek1 Eu Ek0 Est.
    by rewrite mulmxDl mul1mx !mulmxA addrA.
Qed.
End Step.
