(** Updates of the numerical PSI model that change more, or less, than asked: chunks of new
    users only, and new users with new items only under the integrator option. *)
From Coq Require Import ZArith Lia.
From Verif Require Import Prelude DataPrep_model DataPrep_spec Psi_model Psi_spec Tensor_model Matrix_model Attention_model LinAlg_model Num_model Num_sim.
Set Warnings "-notation-overridden".
From mathcomp Require Import all_ssreflect all_algebra.
From Verif Require Import LinAlg_spec LinAlg_bridge LinAlg_psi LinAlg_block Upd_spec Exact_spec Exact_main Num_spec Num_upd Num_book Num_cells Num_steps Num_lossless.
Set Implicit Arguments.
Unset Strict Implicit.
Unset Printing Implicit Defensive.
Import GRing.Theory Num.Theory.
Local Open Scope ring_scope.

Section Cold.
Variable R : realFieldType.
Variable of_rel : Z -> R.
Variables (qr : mat R -> res (mat R * mat R)) (svd : mat R -> res (mat R * list R * mat R)).
Variables (rsvd : mat R -> nat -> res (mat R * list R * mat R)) (exceeds_eps : R -> bool).
Variables (argsort : list R -> list nat) (normal : nat -> nat -> mat R).
Hypotheses (QR : qr_ok qr) (SV : svd_ok svd) (TR : truncated_ok rsvd)
  (AS : argsort_ok (fun x y => x <= y) argsort) (NO : randn_ok normal).
Variable cfg : psi_cfg.
Notation num_update := (num_update (0 : R) 1 +%R *%R (fun x y => x - y) of_rel qr svd rsvd exceeds_eps argsort normal cfg).
Notation runs r := (Num_sim.runs (0 : R) 1 +%R *%R (fun x y => x - y) of_rel qr svd rsvd exceeds_eps argsort normal cfg (inv r)).
Notation total := (total of_rel).

Lemma decompose r x data x' : model_ok r x -> ortho r (users_of (nm_book x)) (items_of (nm_book x)) (nm_f x) ->
  num_update x data = Ok x' ->
  let st := nm_book x in let st' := nm_book x' in
  [/\ psi_update cfg st data = Ok st', model_ok r x', ort r (nm_f x) &
  exists f1 f2 f3 f l1 l2 l3 l4,
   [/\ runs r l1 (nm_f x) f1 /\ stage st' MNew (part_new st data) l1,
       runs r l2 f1 f2 /\ stage st' MNewUsers (part_new_users st data) l2,
       runs r l3 f2 f3 /\ stage st' MNewItems (part_new_items st data) l3,
       runs r l4 f3 f /\ stage st' MOld (late_rows cfg st data) l4
     & [/\ users_of st' = mu f, items_of st' = nu f & score r x' = sc r f]]].
Proof.
  move=> M OX E st st'. have := book_main of_rel exceeds_eps QR SV TR AS NO cfg data M. rewrite E => -[PU M' [f [l [EL RN J EF]]]].
  have O0 : ort r (nm_f x) by case: M => _ F; rewrite /ort; have [-> ->] := fok_at F.
  split=> //.
  have [l1 [l2 [l3 [l4 [EL' [S1 [S2 [S3 S4]]]]]]]] := update_stages _ _ _ _ (proj1 M) PU.
  have El : l = l1 ++ l2 ++ l3 ++ l4 by apply: (List.app_inv_head (ps_log (nm_book x))); exact: (eq_trans (esym EL) EL').
  rewrite El in RN. have [f1 [R1 {}RN]] := runs_split _ _ _ _ _ _ _ _ _ _ _ _ _ _ _ _ _ _ RN.
  have [f2 [R2 {}RN]] := runs_split _ _ _ _ _ _ _ _ _ _ _ _ _ _ _ _ _ _ RN.
  have [f3 [R3 R4]] := runs_split _ _ _ _ _ _ _ _ _ _ _ _ _ _ _ _ _ _ RN.
  exists f1, f2, f3, f, l1, l2, l3, l4.
  have [Em En F4] := inv_sizes J. have Hm : users_of st' = mu f by rewrite /users_of Em Nat2Z.id.
  have Hn : items_of st' = nu f by rewrite /items_of En Nat2Z.id.
  split=> //. split=> //. rewrite /score -/st' Hm Hn EF. have [_ ES] := factors_smat F4.
  by rewrite /score_mx [_.1.1]/= [_.2]/= [X in smx r r X]/= ES.
Qed.

Lemma turned_iff r m n (f : @triple R) : ortho r m n f ->
  ((forall i j, at_mx (turned_mx r m n f) i j = at_mx (score_mx r m n f) i j) <-> (smx r r f.1.2)^T = smx r r f.1.2).
Proof.
  move=> [Ou Ov]. split=> [H|H]; last by rewrite /turned_mx H.
  have := congr1 (fun M => (mx m r f.1.1)^T *m M *m (mx r n f.2)^T) (at_ext H).
  rewrite /turned_mx /score_mx -!mulmxA !(mulmxA (mx m r f.1.1)^T) Ou !mul1mx Ov !mulmx1. exact.
Qed.

Lemma users_only_main r x data x' : lossless rsvd -> cf_init cfg = INone ->
  model_ok r x -> ortho r (users_of (nm_book x)) (items_of (nm_book x)) (nm_f x) ->
  num_update x data = Ok x' ->
  List.Forall (fun y => unknown_user (nm_book x) y /\ ~~ unknown_item (nm_book x) y) data ->
  data <> [::] ->
  let m := users_of (nm_book x) in let n := items_of (nm_book x) in
  let B i j := at_mx (turned_mx r m n (nm_f x)) i j + total (nm_book x') data i j in
  \rank (fmx (users_of (nm_book x')) (items_of (nm_book x')) B) = r ->
  (forall i j, score r x' i j = B i j) /\
  ((forall i j, (i < m)%N -> score r x' i j = score r x i j) <-> (smx r r (nm_f x).1.2)^T = smx r r (nm_f x).1.2).
Proof.
  move=> LL Ei M O E UO ND m n B.
  have [PU M' O0 [f1 [f2 [f3 [f [l1 [l2 [l3 [l4 [[R1 S1] [R2 S2] [R3 S3] [R4 S4] [Hm Hn Hs]]]]]]]]]]] := decompose M O E.
  have UO' : List.Forall (fun y => unknown_user (nm_book x) y = true /\ unknown_item (nm_book x) y = false) data.
    by apply: List.Forall_impl UO => y [-> /negbTE ->].
  have [P1 [P2 [P3 P4]]] := users_only _ _ UO'.
  rewrite P1 in S1. rewrite P2 in S2. rewrite P3 in S3. rewrite /late_rows Ei P4 in S4.
  move: R1 R3 R4. rewrite (stage_nil _ _ _ S1) (stage_nil _ _ _ S3) (stage_nil _ _ _ S4) => /= E1 E3 E4. subst f1 f3 f.
  case: S2 => [[/ND]|[s [_ [El [Es [Ed SL]]]]]] //. subst l2.
  have [J D EU] := runs1 R2.
  have [Emu Enu] : mu (nm_f x) = m /\ nu (nm_f x) = n by case: M => _ /fok_at.
  have EB i j : B i j = at_mx (turned_mx r (mu (nm_f x)) (nu (nm_f x)) (nm_f x)) i j + landed of_rel s i j.
    by rewrite /B Emu Enu (landed_total of_rel i j SL) Ed.
  rewrite Hm Hn => RK.
  have RK' : \rank (fmx (mu f2) (nu f2) (fun i j => at_mx (turned_mx r (mu (nm_f x)) (nu (nm_f x)) (nm_f x)) i j + landed of_rel s i j)) = r.
    rewrite -[RHS]RK. congr mxrank. apply/matrixP => i j. by rewrite !mxE EB.
  have [O2 _ _ H2] := step_users_gen QR TR LL J D EU O0 Es Ei RK'.
  have HS i j : score r x' i j = B i j by rewrite Hs H2 EB.
  split=> //. rewrite -(turned_iff O) -/m -/n.
  have Z i j : (i < m)%N -> total (nm_book x') data i j = 0.
    move=> Hi. rewrite -Ed -(landed_total of_rel i j SL) (step_at of_rel J D i j) Es Emu Hi. by [].
  split=> H i j.
    case: (ltnP i m) => Hi; last by rewrite !at_out ?Hi. have := H i j Hi. by rewrite HS /B (Z _ _ Hi) addr0.
  move=> Hi. rewrite HS /B (Z _ _ Hi) addr0. exact: H.
Qed.

Lemma cold_users_main r x data x' i : cf_init cfg = IZero -> cf_integrator cfg = true ->
  model_ok r x -> ortho r (users_of (nm_book x)) (items_of (nm_book x)) (nm_f x) ->
  num_update x data = Ok x' ->
  let T := fmx (users_of (nm_book x')) (items_of (nm_book x')) (fun i j => score r x i j + total (nm_book x') data i j) in
  let A := fmx (users_of (nm_book x')) (items_of (nm_book x')) (score r x) in
  \rank (T *m A^T) = r ->
  (users_of (nm_book x) <= i)%N ->
  (forall y, List.In y data -> fu (nm_book x') (r_user y) = Some (Z.of_nat i) -> unknown_item (nm_book x) y) ->
  forall j, score r x' i j = 0.
Proof.
  move=> Ei Eg M O E T A RK Hi CO.
  have [PU M' O0 [f1 [f2 [f3 [f [l1 [l2 [l3 [l4 [[R1 S1] [R2 S2] [R3 S3] [R4 S4] [Hm Hn Hs]]]]]]]]]]] := decompose M O E.
  have [O1 H1] := stage_new_zero S1 R1 O0 erefl Eg.
  have [O2 H2] := stage_zero S2 R2 O1 (or_introl erefl) Ei.
  have [O3 H3] := stage_zero S3 R3 O2 (or_intror erefl) Ei.
  have HS a b : sc r f3 a b = score r x a b by rewrite H3 H2 H1 !addr0 (score_sc M).
  have Z0 b : score r x i b = 0 by rewrite /score at_out ?Hi.
  rewrite /late_rows Ei Eg in S4. move=> j. rewrite Hs.
  case: S4 => [[Ed El]|[s [_ [El [Es [Ed SL]]]]]]; subst l4.
    move: R4 => /= ->. by rewrite HS Z0.
  have [J D EU] := runs1 R4. have [[_ Em En] _] := step_old QR J D EU O3 Es.
  apply: (step_cold QR J D EU O3 Es) => [|b].
    rewrite -[RHS]RK -Em -En -Hm -Hn /T /A. congr (\rank (_ *m _^T)); apply/matrixP => a b; rewrite !mxE ?HS //.
    by rewrite (landed_total of_rel _ _ SL) Ed.
  rewrite HS Z0 add0r (landed_total of_rel i b SL) Ed.
  case EX : (List.existsb (hits (nm_book x') i b) data).
    right=> k. have [y [Iy]] := (proj1 (List.existsb_exists _ _) EX).
    rewrite /hits. case Fu : (fu _ _) => [a|] //. case Fi : (fi _ _) => [c|] // /andP [/Z.eqb_spec Ea /Z.eqb_spec Ec]. subst a c.
    have := CO _ Iy Fu. rewrite /unknown_item. case Fo : (fi _ _) => [?|] // _.
    have L := new_item_index _ _ _ _ _ _ (proj1 M) PU Fo Fi. rewrite HS /score at_out //. apply/orP; right.
    apply/leP. rewrite /items_of. lia.
  left. rewrite /Num_spec.total. elim: data EX {E T A RK CO PU S1 S2 S3 Ed SL} => [|y l IH] /=; first by rewrite big_nil.
  move=> /Bool.orb_false_iff [H /IH EQ]. by rewrite big_cons H EQ.
Qed.
End Cold.
