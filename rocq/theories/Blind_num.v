(** Recommendations of a model that reproduces its data. *)
From Coq Require Import ZArith QArith.
From Coq Require List.
From Verif Require Import Prelude DataPrep_model DataPrep_spec Recommend_model Recommend_spec Psi_model Psi_spec Tensor_model Matrix_model Attention_model LinAlg_model Num_model Eval_model Full_spec Full_model.
From Verif Require Full_rec Full_psi Full_num Psi_main DataPrep_main Prelude_proofs Eval_spec Eval_proofs Blind_rows.
Set Warnings "-notation-overridden".
From mathcomp Require Import all_ssreflect all_algebra.
From Coq Require Import Lia.
From Verif Require Import LinAlg_spec Upd_spec Exact_spec Num_spec Blind_nspec.
From Verif Require Num_main Num_train.
Set Implicit Arguments.
Unset Strict Implicit.
Unset Printing Implicit Defensive.
Import Order.TTheory GRing.Theory Num.Theory.
Local Open Scope ring_scope.

Section Blind.
Variable R : realFieldType.
Variable of_rel : Z -> R.
Notation le := (fun x y : R => x <= y).
Notation num_rec := (num_rec 0 +%R *%R).
Notation recommend ap k x users := (svd_recommend (0 : R) +%R *%R ap k x users false).
Variables (r : nat) (x : @num_state R) (P : list DataPrep_model.row).
Hypothesis M : model_ok r x.
Hypothesis I : Psi_main.inv (nm_book x) P.
Hypothesis T : forall i j, score r x i j = total of_rel (nm_book x) P i j.

Lemma hits_ids u i a b y : fu (nm_book x) u = Some a -> fi (nm_book x) i = Some b ->
  hits (nm_book x) (Z.to_nat a) (Z.to_nat b) y = Z.eqb (r_user y) u && Z.eqb (r_item y) i.
Proof.
  move=> Ha Hb. have [BU [BI _]] : aligned (nm_book x) by case: M.
  have Ra := DataPrep_main.bij_f_nonneg _ _ _ BU Ha. have Rb := DataPrep_main.bij_f_nonneg _ _ _ BI Hb.
  rewrite /hits !Z2Nat.id; [|lia|lia].
  have inj : forall (m : mapping) k k' v, bij m Z0 -> f_of m k = Some v -> f_of m k' = Some v -> k = k'.
  { move=> m k k' v [_ [B _]] /B E1 /B E2. congruence. }
  have one : forall (m : mapping) k k' v w, bij m Z0 -> f_of m k = Some v -> f_of m k' = Some w -> Z.eqb w v = Z.eqb k' k.
  { move=> m k k' v w B E1 E2. case: (Z.eqb_spec k' k) => [E|N].
    - subst k'. rewrite E1 in E2. case: E2 => ->. exact: Z.eqb_refl.
    - apply/Z.eqb_neq => E. subst w. apply: N. exact: inj B E2 E1. }
  case E1: (fu (nm_book x) (r_user y)) => [a'|]; case E2: (fi (nm_book x) (r_item y)) => [b'|].
  - by rewrite (one _ _ _ _ _ BU Ha E1) (one _ _ _ _ _ BI Hb E2).
  - case: (Z.eqb_spec (r_item y) i) => [E|N]; last by rewrite andbF. move: E2 Hb. rewrite E. by move=> ->.
  - case: (Z.eqb_spec (r_user y) u) => [E|N] //. move: E1 Ha. rewrite E. by move=> ->.
  - case: (Z.eqb_spec (r_user y) u) => [E|N] //. move: E1 Ha. rewrite E. by move=> ->.
Qed.

Lemma good : Full_num.good (Z.of_nat r) x P.
Proof. split=> //. by rewrite Nat2Z.id. Qed.
Lemma describes : Full_rec.describes (num_rec x) P.
Proof. exact: Full_num.good_describes good. Qed.
Lemma two : Peano.le 2 (length (catalogue P)).
Proof. exact: Full_num.good_two good. Qed.

Lemma known u : List.In u (List.map r_user P) -> exists a, fu (nm_book x) u = Some a.
Proof. case: I => _ [_ [_ [KU _]]] /KU. by case: (fu _ u) => [a|] // _; exists a. Qed.
Lemma known_item i : List.In i (List.map r_item P) -> exists b, fi (nm_book x) i = Some b.
Proof. case: I => _ [_ [_ [_ [KI _]]]] /KI. by case: (fi _ i) => [b|] // _; exists b. Qed.

Lemma maps_rec : rs_mappings (num_rec x) = ps_maps (nm_book x).
Proof. rewrite /Full_model.num_rec. by case: (nm_f x) => [[? ?] ?]. Qed.
Lemma scores_rec a : rs_scores (num_rec x) a = num_scores 0 +%R *%R x (Z.to_nat a).
Proof. rewrite /Full_model.num_rec. by case: (nm_f x) => [[? ?] ?]. Qed.

Lemma scores_ids u i : List.In u (List.map r_user P) -> List.In i (List.map r_item P) ->
  score_of (num_rec x) u i = Some (given of_rel P u i).
Proof.
  move=> /known [a Ha] /known_item [b Hb]. have [BU [BI [NU [NI _]]]] : aligned (nm_book x) by case: M.
  have Ra := DataPrep_main.bij_f_nonneg _ _ _ BU Ha. have Rb := DataPrep_main.bij_f_nonneg _ _ _ BI Hb.
  move: (Ha) (Hb). rewrite /fu /fi /score_of maps_rec => -> ->. rewrite scores_rec (Num_main.scores_rows _ M).
  have -> : (Z.to_nat a < users_of (nm_book x))%N by (apply/ssrnat.ltP; rewrite /users_of; lia).
  have L : (Z.to_nat b < items_of (nm_book x))%N by (apply/ssrnat.ltP; rewrite /items_of; lia).
  rewrite (_ : List.nth_error _ _ = Some (score r x (Z.to_nat a) (Z.to_nat b))).
  - rewrite T /total /given. congr Some. apply: eq_bigl => y. exact: hits_ids.
  - rewrite List.nth_error_map. have -> : List.nth_error (iota 0 (items_of (nm_book x))) (Z.to_nat b) = Some (Z.to_nat b); last by [].
    move: L. move: (items_of _) (Z.to_nat b) => n m. rewrite -[in RHS](add0n m). move: 0%N m. elim: n => [|n IH] s [|m] //= L.
    + by rewrite addn0.
    + by rewrite (IH s.+1 m L) addSnnS.
Qed.

Lemma given_unseen u i : List.In i (unseen P u) -> given of_rel P u i = 0.
Proof.
  move=> /Full_rec.unseen_In [_ N]. rewrite /given.
  have {N} N : forall y, List.In y P -> (Z.eqb (r_user y) u && Z.eqb (r_item y) i) = false.
  { move=> y Hy. apply/negP => /andP [/Z.eqb_eq E1 /Z.eqb_eq E2]. apply: N. by exists y. }
  elim: P N => [|y l IH] N; first by rewrite big_nil. rewrite big_cons N; last by left. apply: IH => z Hz. apply: N. by right.
Qed.

Lemma blind_ties k (k1 : Peano.le 1 k) users rows :
  (exists ap, argpartition_contract le ap /\ recommend ap k x users = Ok rows) <->
  List.Forall2 (fun u row => List.In u (List.map r_user P) /\ offer k P u row) users rows.
Proof.
  have tot : forall a b : R, le a b = true \/ le b a = true.
  { move=> a b. case/orP: (le_total a b) => H; [by left|by right]. }
  have tr : forall a b c : R, le a b = true -> le b c = true -> le a c = true by move=> a b c; exact: le_trans.
  have TI : forall u i j (a b : R), List.In i (unseen P u) -> List.In j (unseen P u) ->
    score_of (num_rec x) u i = Some a -> score_of (num_rec x) u j = Some b -> le a b = true.
  { move=> u i j a b Hi Hj Ea Eb.
    have Ku : List.In u (List.map r_user P).
    { case: I => _ [_ [_ [KU _]]]. apply KU. move: Ea. rewrite /score_of maps_rec /fu. by case: (f_of _ u). }
    have [Ki _] := proj1 (Full_rec.unseen_In _ _ _) Hi. have [Kj _] := proj1 (Full_rec.unseen_In _ _ _) Hj.
    move: Ea Eb. rewrite !scores_ids // (given_unseen Hi) (given_unseen Hj) => -[<-] [<-]. exact: lexx. }
  have TI' : forall users u i j (a b : R), List.In u users -> List.In i (unseen P u) -> List.In j (unseen P u) ->
    score_of (num_rec x) u i = Some a -> score_of (num_rec x) u j = Some b -> le a b = true by move=> us u i j a b _; exact: TI.
  exact: (Blind_rows.offers_iff le tot tr (num_rec x) P describes k k1 two users rows (TI' users)).
Qed.

Lemma blind_hits k (k1 : Peano.le 1 k) users test (want : list bool) : users <> [::] ->
  List.Forall2 (fun u t => List.In u (List.map r_user P) /\ List.In t (unseen P u) /\ Peano.lt k (length (unseen P u))) users test ->
  length want = length users ->
  exists ap rows h, [/\ argpartition_contract le ap, recommend ap k x users = Ok rows, hr rows test = Ok h,
    List.Forall2 (fun rt b => List.In rt.2 rt.1 <-> b = true) (List.combine rows test) want
    & Qeq h (Qdiv (inject_Z (Z.of_nat (length (List.filter id want)))) (inject_Z (Z.of_nat (length users))))].
Proof.
  move=> NE F LW. have [rows [F1 F2]] := Blind_rows.offers_with k P users test want k1 F LW.
  have [ap [C E]] := proj2 (blind_ties k1 users rows) F1.
  have L1 := Prelude_proofs.Forall2_len _ _ _ F. have L2 := Prelude_proofs.Forall2_len _ _ _ F1.
  have NT : test <> [::] by move=> Et; apply: NE; move: L1; rewrite Et; case: (users).
  have LL : Peano.le (length test) (length rows) by rewrite -L1 -L2; exact: Peano.le_n.
  have [_ [_ H]] := Eval_proofs.hr_exact_main rows test. have [h [Eh [Q _]]] := H LL NT.
  exists ap, rows, h. split=> //. rewrite Q (Blind_rows.hits_count _ _ _ _ F2); last by rewrite -L1 -L2.
  rewrite -L1. reflexivity.
Qed.
End Blind.

(** The stream of lossless updates. *)
Section Stream.
Variable R : realFieldType.
Variable of_rel : Z -> R.
Variables (svds : mat R -> nat -> res (mat R * list R * mat R)) (qr : mat R -> res (mat R * mat R)) (svd : mat R -> res (mat R * list R * mat R)).
Variables (rsvd : mat R -> nat -> res (mat R * list R * mat R)) (exceeds_eps : R -> bool).
Variables (argsort : list R -> list nat) (normal : nat -> nat -> mat R).
Notation sub := (fun x y : R => x - y).
Hypotheses (QR : qr_ok qr) (SV : svd_ok svd) (NN : nonneg_svd svd) (TR : truncated_ok rsvd) (LO : lossless rsvd).
Hypotheses (AS : argsort_ok (fun x y => x <= y) argsort) (NO : randn_ok normal).
Variables (cfg : psi_cfg) (rank : Z) (data : list DataPrep_model.row) (chunks : list (list DataPrep_model.row)) (x : @num_state R).
Notation r := (Z.to_nat rank).
Hypotheses (SO : svds_mat_ok svds) (SN : nonneg_svd (fun y => svds y r)) (SL : lossless svds).
Hypothesis E : num_train 0 +%R of_rel svds rank data = Ok x.
Hypothesis RK : (\rank (fmx (users_of (nm_book x)) (items_of (nm_book x)) (total of_rel (nm_book x) data)) <= r)%N.
Hypothesis LS : lossless_stream of_rel cfg r (num_update 0 1 +%R *%R sub of_rel qr svd rsvd exceeds_eps argsort normal cfg) x chunks.
Notation P := (List.app data (List.concat chunks)).

Lemma stream_state : exists x', [/\ num_stream 0 1 +%R *%R sub of_rel qr svd rsvd exceeds_eps argsort normal cfg x chunks = Ok x',
  model_ok r x', Psi_main.inv (nm_book x') P & forall i j, score r x' i j = total of_rel (nm_book x') P i j].
Proof.
  have [x' [Ex Mx Tx]] := Num_main.stream_exact QR SV NN TR LO AS NO SO SN SL E RK LS.
  have [Tb Mb _] := Num_main.train_book SO E.
  have := Num_main.stream_book of_rel exceeds_eps QR SV TR AS NO cfg chunks Mb. rewrite Ex => -[Eb _].
  exists x'. split=> //. exact: Psi_main.stream_inv (Psi_main.train_inv _ _ _ Tb) Eb.
Qed.

Notation le := (fun x y : R => x <= y).
Notation num_rec := (num_rec 0 +%R *%R).
Notation recommend ap k x users := (svd_recommend (0 : R) +%R *%R ap k x users false).
Lemma stream_blind : exists x', [/\ num_stream 0 1 +%R *%R sub of_rel qr svd rsvd exceeds_eps argsort normal cfg x chunks = Ok x',
  (forall u i, List.In u (List.map r_user P) -> List.In i (List.map r_item P) -> score_of (num_rec x') u i = Some (given of_rel P u i)),
  (forall k users rows, Peano.le 1 k ->
    (exists ap, argpartition_contract le ap /\ recommend ap k x' users = Ok rows) <->
    List.Forall2 (fun u row => List.In u (List.map r_user P) /\ offer k P u row) users rows)
  & (forall k users test want, Peano.le 1 k -> users <> [::] ->
    List.Forall2 (fun u t => List.In u (List.map r_user P) /\ List.In t (unseen P u) /\ Peano.lt k (length (unseen P u))) users test ->
    length want = length users ->
    exists ap rows h, [/\ argpartition_contract le ap, recommend ap k x' users = Ok rows, hr rows test = Ok h,
      List.Forall2 (fun rt b => List.In rt.2 rt.1 <-> b = true) (List.combine rows test) want
      & Qeq h (Qdiv (inject_Z (Z.of_nat (length (List.filter id want)))) (inject_Z (Z.of_nat (length users))))])].
Proof.
  have [x' [Ex Mx Ix Tx]] := stream_state. exists x'. split=> //.
  - move=> u i. exact: scores_ids Mx Ix Tx u i.
  - move=> k users rows k1. exact: blind_ties Mx Ix Tx k k1 users rows.
  - move=> k users test want k1. exact: blind_hits Mx Ix Tx k k1 users test want.
Qed.
End Stream.

(** Training alone: the SVD model, also when it is retrained. *)
Section Train.
Variable R : realFieldType.
Variable of_rel : Z -> R.
Variables (svds : mat R -> nat -> res (mat R * list R * mat R)) (rank : Z) (data : list DataPrep_model.row) (x : @num_state R).
Notation r := (Z.to_nat rank).
Notation le := (fun x y : R => x <= y).
Notation num_rec := (num_rec 0 +%R *%R).
Notation recommend ap k x users := (svd_recommend (0 : R) +%R *%R ap k x users false).
Hypotheses (SO : svds_mat_ok svds) (SL : lossless svds).
Hypothesis E : num_train 0 +%R of_rel svds rank data = Ok x.
Hypothesis RK : (\rank (fmx (users_of (nm_book x)) (items_of (nm_book x)) (total of_rel (nm_book x) data)) <= r)%N.
Lemma train_blind :
  (forall u i, List.In u (List.map r_user data) -> List.In i (List.map r_item data) -> score_of (num_rec x) u i = Some (given of_rel data u i)) /\
  (forall k users rows, Peano.le 1 k ->
    (exists ap, argpartition_contract le ap /\ recommend ap k x users = Ok rows) <->
    List.Forall2 (fun u row => List.In u (List.map r_user data) /\ offer k data u row) users rows).
Proof.
  have [Tb Mb Ob] := Num_main.train_book SO E. have Ib := Psi_main.train_inv _ _ _ Tb.
  have Tx : forall i j, score r x i j = total of_rel (nm_book x) data i j.
  { have [_ _ _ _ X] := Num_train.train_main SO E. exact: X SL RK. }
  split.
  - move=> u i. exact: scores_ids Mb Ib Tx u i.
  - move=> k users rows k1. exact: blind_ties Mb Ib Tx k k1 users rows.
Qed.
End Train.
