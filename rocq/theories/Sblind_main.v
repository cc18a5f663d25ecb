(** Recommendations of sequential models without approximation error. *)
From Coq Require Import ZArith QArith.
From Coq Require List.
From Verif Require Import Prelude DataPrep_model DataPrep_spec History_model History_spec Recommend_model Recommend_spec Eval_model Psi_model Tirec_model Tirec_spec
  Tensor_model Matrix_model Attention_model Attention_spec LinAlg_model Tucker_model Hooi_model Upd_model Nti_model Full_spec Seqx_spec Seqx_model.
From Verif Require Recommend_main Tirec_stream DataPrep_main Full_rec Full_exp Prelude_proofs Eval_spec Eval_proofs Blind_rows Nti_train Seqx_book Seqx_inv Seqx_num History_proofs.
Set Warnings "-notation-overridden".
From mathcomp Require Import all_ssreflect all_algebra.
From Coq Require Import Lia.
From Verif Require Import LinAlg_spec Tucker_spec Hooi_spec Upd_spec Exact_spec Nti_spec Sblind_spec.
From Verif Require Nti_sim Nti_track Sblind_alg.
Set Implicit Arguments.
Unset Strict Implicit.
Unset Printing Implicit Defensive.
Import Order.TTheory GRing.Theory Num.Theory.
Local Open Scope ring_scope.

(** Any state that describes [P] and ties the unseen items of every user. *)
Section Ties.
Variable R : realFieldType.
Notation le := (fun x y : R => x <= y).
Variables (st : rec_state R) (P : list DataPrep_model.row).
Hypothesis D : Full_rec.describes st P.
Hypothesis TWO : Peano.le 2 (length (catalogue P)).
Hypothesis TI : forall u i j (a b : R), List.In i (unseen P u) -> List.In j (unseen P u) ->
  score_of st u i = Some a -> score_of st u j = Some b -> a <= b.

Lemma ties_offer k (k1 : Peano.le 1 k) users rows :
  (exists ap, argpartition_contract le ap /\ recommend ap st users k true false = Ok rows) <->
  List.Forall2 (fun u row => List.In u (List.map r_user P) /\ offer k P u row) users rows.
Proof.
  have tot : forall a b : R, le a b = true \/ le b a = true.
  { move=> a b. case/orP: (le_total a b) => H; [by left|by right]. }
  have tr : forall a b c : R, le a b = true -> le b c = true -> le a c = true by move=> a b c; exact: le_trans.
  have TI' : forall u i j (a b : R), List.In u users -> List.In i (unseen P u) -> List.In j (unseen P u) ->
    score_of st u i = Some a -> score_of st u j = Some b -> le a b = true by move=> u i j a b _; exact: TI.
  exact: (Blind_rows.offers_iff le tot tr st P D k k1 TWO users rows TI').
Qed.

Lemma ties_hits k (k1 : Peano.le 1 k) users test (want : list bool) : users <> [::] ->
  List.Forall2 (fun u t => List.In u (List.map r_user P) /\ List.In t (unseen P u) /\ Peano.lt k (length (unseen P u))) users test ->
  length want = length users ->
  exists ap rows h, [/\ argpartition_contract le ap, recommend ap st users k true false = Ok rows, hr rows test = Ok h,
    List.Forall2 (fun rt b => List.In rt.2 rt.1 <-> b = true) (List.combine rows test) want
    & Qeq h (Qdiv (inject_Z (Z.of_nat (length (List.filter id want)))) (inject_Z (Z.of_nat (length users))))].
Proof.
  move=> NE F LW. have [rows [F1 F2]] := Blind_rows.offers_with k P users test want k1 F LW.
  have [ap [C E]] := proj2 (ties_offer k1 users rows) F1.
  have L1 := Prelude_proofs.Forall2_len _ _ _ F. have L2 := Prelude_proofs.Forall2_len _ _ _ F1.
  have NT : test <> [::] by move=> Et; apply: NE; move: L1; rewrite Et; case: (users).
  have LL : Peano.le (length test) (length rows) by rewrite -L1 -L2; exact: Peano.le_n.
  have [_ [_ H]] := Eval_proofs.hr_exact_main rows test. have [h [Eh [Q _]]] := H LL NT.
  exists ap, rows, h. split=> //. rewrite Q (Blind_rows.hits_count _ _ _ _ F2); last by rewrite -L1 -L2.
  rewrite -L1. reflexivity.
Qed.
End Ties.

Section State.
Variable R : realFieldType.
Notation le := (fun x y : R => x <= y).
Variables (r0 r1 r2 L : nat) (a ainv : mat R).
Hypotheses (L2 : Peano.le 2 L) (Sa : shape L L a) (Si : shape L L ainv).
Notation good := (Seqx_num.good L r0 r1 r2 a ainv).
Notation nti_rec := (nti_rec 0 +%R *%R).
Variables (x : @nti_state R) (P : list DataPrep_model.row).
Hypothesis G : good x P.
Variables (X : cell -> R) (M : 'M[R]_L).
Hypothesis RP : reproduces x X M.

Lemma describes : Full_rec.describes (nti_rec x) P.
Proof. exact: (Seqx_num.good_describes L2 Sa Si (Peano.le_n 1) G). Qed.

Lemma zero_scores u i : List.In u (List.map r_user P) -> List.In i (List.map r_item P) -> ~ List.In i (recent L P u) ->
  score_of (nti_rec x) u i = Some 0.
Proof.
  move=> Ku Ki NR. have D := describes. have [st [I F MO PE _]] := G.
  have [FM FH FS [F0 F1]] := F. have W := Seqx_book.sinv_wf _ _ _ I.
  have [ui Hu] : exists ui, f_of (m_users (nt_maps x)) u = Some ui.
  { have := proj2 (Full_rec.ds_ku _ _ D u) Ku. cbn [rs_mappings Seqx_model.nti_rec]. by case: (f_of _ u) => [ui|] // _; exists ui. }
  have [b Hb] : exists b, f_of (m_items (nt_maps x)) i = Some b.
  { have := proj2 (Full_rec.ds_ki _ _ D i) Ki. cbn [rs_mappings Seqx_model.nti_rec]. by case: (f_of _ i) => [b|] // _; exists b. }
  have Rb := Full_rec.item_range _ _ D i b Hb. cbn [rs_n_items Seqx_model.nti_rec] in Rb.
  have Ru : Z.le 0 ui /\ Z.lt ui (Z.of_nat (n_rows x 0)).
  { have := W => -[BU [_ [EU _]]]. have F0' : Z.of_nat (n_rows x 0) = nusers st by rewrite /nusers F0.
    rewrite F0' EU. have HU : f_of (m_users (ti_maps st)) u = Some ui by rewrite -FM.
    have := DataPrep_main.bij_f_nonneg _ _ _ BU HU. lia. }
  have [q [EQ LQ]] := Seqx_num.scores_ok L2 Sa Si (Peano.le_n 1) G Ru.
  rewrite /score_of. cbn [rs_mappings rs_scores Seqx_model.nti_rec]. rewrite Hu Hb EQ.
  case: (I) => _ SI. have HU : Tirec_spec.tu st u = Some ui by rewrite /Tirec_spec.tu -FM.
  have [d [l [Hd [Ed Fl]]]] := SI u ui HU.
  rewrite -FS in Hd.
  have Ln : Peano.lt (Z.to_nat b) (n_rows x 1).
  { apply/Nat2Z.inj_lt. by rewrite Z2Nat.id; case: Rb. }
  have Lb : Peano.lt (Z.to_nat b) (length q) by rewrite LQ.
  rewrite (List.nth_error_nth' q 0 Lb). congr Some.
  apply: (Sblind_alg.unseen_zero MO RP Sa Si W F PE Hd EQ); first exact/ssrnat.ltP.
  rewrite Z2Nat.id; last exact: (proj1 Rb). rewrite Ed => HI. apply: NR.
  have NP : b <> PAD_VALUE by move=> E; rewrite E in Rb; case: Rb.
  move: HI => /(proj1 (Seqx_book.pad_In _ _ _ NP)) HI.
  have [i' [Hi' Ei']] := Recommend_main.Forall2_In_r _ _ _ _ (Seqx_book.Forall2_lastn _ L _ _ Fl) HI.
  suff -> : i = i' by [].
  apply: (Full_rec.f_inj_i _ _ D i i' b); cbn [rs_mappings Seqx_model.nti_rec] => //. by rewrite FM.
Qed.

Lemma unseen_tie u i j (s t : R) : List.In i (unseen P u) -> List.In j (unseen P u) ->
  score_of (nti_rec x) u i = Some s -> score_of (nti_rec x) u j = Some t -> s <= t.
Proof.
  move=> Hi Hj Es Et.
  have Ku : List.In u (List.map r_user P).
  { apply (Full_rec.ds_ku _ _ describes). move: Es. rewrite /score_of. by case: f_of. }
  have NR k : List.In k (unseen P u) -> List.In k (List.map r_item P) /\ ~ List.In k (recent L P u).
  { move=> /(proj1 (Full_rec.unseen_In _ _ _)) [H1 H2]. split=> //.
    move=> /(@Seqx_book.lastn_incl _ _ _ _) /(proj1 (List.in_map_iff _ _ _)) [r [E Hr]]. apply: H2. exists r.
    move: Hr => /(proj1 (List.filter_In _ _ _)) [Hr /Z.eqb_eq Eu]. by []. }
  have [Ki Ri] := NR i Hi. have [Kj Rj] := NR j Hj.
  rewrite (zero_scores Ku Ki Ri) in Es. rewrite (zero_scores Ku Kj Rj) in Et. by case: Es Et => <- [<-].
Qed.
End State.

(** Training on a raw table followed by a stream of chunks. *)
Section Stream.
Variable R : realFieldType.
Notation le := (fun x y : R => x <= y).
Variable of_val : Z -> R.
Variables exceeds_eps is_one : R -> bool.
Hypothesis IS1 : forall y, is_one y = true -> y = 1.
Variables (cfg : nti_cfg) (L r0 r1 r2 : nat) (a ainv : mat R) (att : option (mat R)).
Hypotheses (L2 : Peano.le 2 L) (Ha : att_shape L att) (Sa : shape L L a) (Si : shape L L ainv).
Variables (s : bool) (keep : list DataPrep_model.row -> list DataPrep_model.row).
Hypothesis KEEP : crops L s keep.
Notation good := (Seqx_num.good L r0 r1 r2 a ainv).
Notation stream := (nti_stream 0 1 +%R *%R (fun x y => x - y) of_val exceeds_eps is_one cfg L a ainv att).

Lemma good_stream chunks : forall rt x x' P, (forall t md, rt_ok (rt t md)) -> good x P ->
  stream rt s x chunks = Ok x' -> good x' (List.app P (List.concat (List.map keep chunks))).
Proof.
  elim: chunks => [|c l IH] rt x x' P RT G; first by move=> [<-]; rewrite List.app_nil_r.
  cbn [nti_stream List.map List.concat].
  have := Seqx_num.update_outcome of_val exceeds_eps IS1 cfg L2 Ha Sa Si (fun _ => Err KeyError) (fun _ _ _ => Err KeyError)
    (rt := fun _ => rt 0%N) (fun _ => RT 0%N) (Peano.le_n 1) KEEP c G.
  rewrite /seq_update. case: nti_update => [y|e] //; cbn [bind]. move=> [_ G1] E.
  rewrite List.app_assoc. exact: (IH _ _ _ _ (fun t => RT t.+1) G1 E).
Qed.

Variables (qr : mat R -> res (mat R * mat R)) (rand : nat -> nat -> nat -> mat R) (rsvd : nat -> mat R -> nat -> res (mat R * list R * mat R)).
Variables (N : Type) (norm : ten R -> N) (norm0 : N) (grew : N -> N -> bool) (n_iter : nat) (force : bool).
Notation train := (nti_train 0 +%R *%R of_val qr rand rsvd norm norm0 grew L (r0, r1, r2) a ainv n_iter force).
Variables (table : list DataPrep_model.row) (data : list prow).
Hypotheses (QR : qr_ok qr) (RAND : forall m, randn_ok (rand m)) (INNER : inner_ok rsvd).
Hypotheses (P0 : (0 < r0)%N) (P1 : (0 < r1)%N) (P2 : (0 < r2)%N) (NI : (0 < n_iter)%N).
Hypothesis CROP : get_df_with_cropped_pos_column table L s = Ok data.
Hypothesis TWO : Peano.le 2 (length (catalogue (keep table))).

Lemma good_train x : train data nil = Ok x ->
  exists st, [/\ tdrec_train L (Z.of_nat r0, Z.of_nat r1, Z.of_nat r2) data nil = Ok st, follows x st, model_ok r0 r1 r2 L x & good x (keep table)].
Proof.
  move=> E. have := Nti_sim.train_sim of_val Sa Si norm norm0 grew force nil QR RAND INNER P0 P1 P2 NI (Nti_train.cropped_positions _ _ _ _ CROP).
  rewrite E. move=> [st ET [F M PE]]. exists st. split=> //. exists st. split=> //.
  exact: (Seqx_inv.sinv_train _ _ _ _ _ _ _ KEEP CROP ET).
Qed.

Variables (rt : nat -> mode -> routines R) (chunks : list (list DataPrep_model.row)) (x : @nti_state R).
Hypothesis RT : forall t md, rt_ok (rt t md).
Notation P := (List.app (keep table) (List.concat (List.map keep chunks))).

Theorem anything : (do x0 <- train data nil; stream rt s x0 chunks) = Ok x ->
  forall (X : cell -> R) (M : 'M[R]_L), reproduces x X M ->
  [/\ (forall u i, List.In u (List.map r_user P) -> List.In i (List.map r_item P) -> ~ List.In i (recent L P u) ->
         score_of (nti_rec 0 +%R *%R x) u i = Some 0),
      (forall k users rows, Peano.le 1 k ->
         (exists ap, argpartition_contract le ap /\ nti_recommend 0 +%R *%R ap k x users false = Ok rows) <->
         List.Forall2 (fun u row => List.In u (List.map r_user P) /\ offer k P u row) users rows)
    & (forall k users test want, Peano.le 1 k -> users <> nil ->
         List.Forall2 (fun u t => List.In u (List.map r_user P) /\ List.In t (unseen P u) /\ Peano.lt k (length (unseen P u))) users test ->
         length want = length users ->
         exists ap rows h, [/\ argpartition_contract le ap, nti_recommend 0 +%R *%R ap k x users false = Ok rows, hr rows test = Ok h,
           List.Forall2 (fun rt b => List.In rt.2 rt.1 <-> b = true) (List.combine rows test) want
           & Qeq h (Qdiv (inject_Z (Z.of_nat (length (List.filter id want)))) (inject_Z (Z.of_nat (length users))))])].
Proof.
  case E : nti_train => [x0|e] //; cbn [bind] => ES X M RP.
  have [st [_ _ _ G0]] := good_train E. have G := good_stream RT G0 ES.
  have D := describes L2 Sa Si G. have T2 := Seqx_num.good_two G.
  have TI := unseen_tie L2 Sa Si G RP. split.
  - move=> u i. exact: (zero_scores L2 Sa Si G RP).
  - move=> k users rows k1. exact: (ties_offer D T2 TI k1).
  - move=> k users test want k1 NE F LW. exact: (ties_hits D T2 TI k1 NE F LW).
Qed.
End Stream.

(** Models that hold the position tensor of the histories. *)
Section History.
Variable R : realFieldType.
Variable of_val : Z -> R.
Hypotheses (V0 : of_val Z0 = 0) (V1 : of_val (Zpos xH) != 0).
Variables (L : nat) (x : @nti_state R) (st : ti_state).
Hypotheses (W : ti_wf L st) (F : follows x st).

Lemma history_reproduces (M : 'M[R]_L) : M \in unitmx ->
  (forall u i (q : 'I_L), (u < n_rows x 0)%N -> (i < n_rows x 1)%N ->
     value L x (u, i, q : nat) = \sum_(p < L) history_value of_val (nt_seq x) (u, i, p : nat) * M p q) ->
  reproduces x (history_value of_val (nt_seq x)) M.
Proof.
  move=> MU H. have [_ _ FS [F0 F1]] := F. split=> //.
  - move=> u i j p. rewrite /history_value /hist_cell /c0 /c1 /c2. cbn [fst snd t_user t_item t_pos].
    case: dget => [l|]; last by rewrite V0 eqxx.
    case: Z.ltb; first by rewrite V0 eqxx. case: List.nth_error => [y|]; last by rewrite V0 eqxx.
    case: (Z.eqb_spec y (Z.of_nat i)) => [->|_]; last by rewrite V0 eqxx.
    case: (Z.eqb_spec (Z.of_nat i) (Z.of_nat j)) => [E _ _|_]; last by rewrite V0 eqxx. exact: Nat2Z.inj.
  - move=> u d j Hd Hj NP. rewrite FS in Hd.
    have := W => -[_ [_ [_ [_ [_ [_ [_ [_ [WK WD]]]]]]]]]. have [_ [LD [J _]]] := WD u d Hd.
    have Ru : Z.le 0 u /\ Z.lt u (nusers st) by apply WK; apply Prelude_proofs.dget_Some_in; exists d.
    have Rj : Z.le 0 j /\ Z.lt j (nitems st) by case: (J j Hj).
    have [p Hp] := List.In_nth_error _ _ Hj.
    have Lp : (p < L)%N by apply/ssrnat.ltP; rewrite -LD; apply List.nth_error_Some; rewrite Hp.
    exists (Z.to_nat u), (Ordinal Lp). split.
    + apply/ssrnat.ltP. rewrite F0. apply/Nat2Z.inj_lt. by rewrite Z2Nat.id; case: Ru.
    + rewrite /history_value /hist_cell /c0 /c1 /c2. cbn [fst snd t_user t_item t_pos nat_of_ord].
      rewrite !Z2Nat.id; [|exact: (proj1 Rj)|exact: (proj1 Ru)].
      rewrite History_proofs.dget_hist_lists FS Hd. cbn [option_map].
      have -> : Z.ltb (Z.of_nat p) 0 = false by apply/Z.ltb_ge; exact: Nat2Z.is_nonneg.
      rewrite Nat2Z.id Hp Z.eqb_refl. by case: (Z.eqb_spec j PAD_VALUE).
Qed.
End History.

(** A lossless stream without attention. *)
Section Lossless.
Variable R : realFieldType.
Notation le := (fun x y : R => x <= y).
Variable of_val : Z -> R.
Hypotheses (V0 : of_val Z0 = 0) (VD : forall y z, of_val (Z.add y z) = of_val y + of_val z) (V1 : of_val (Zpos xH) != 0).
Variables exceeds_eps is_one : R -> bool.
Hypothesis IS1 : forall y, is_one y = true -> y = 1.
Variables (cfg : nti_cfg) (L r0 r1 r2 : nat) (a ainv : mat R).
Hypotheses (NV : nc_variant cfg <> VTIRecA) (L2 : Peano.le 2 L) (Sa : shape L L a) (Si : shape L L ainv).
Variables (s : bool) (keep : list DataPrep_model.row -> list DataPrep_model.row).
Hypothesis KEEP : crops L s keep.
Variables (qr : mat R -> res (mat R * mat R)) (rand : nat -> nat -> nat -> mat R) (rsvd : nat -> mat R -> nat -> res (mat R * list R * mat R)).
Variables (N : Type) (norm : ten R -> N) (norm0 : N) (grew : N -> N -> bool) (n_iter : nat) (force : bool).
Variables (table : list DataPrep_model.row) (data : list prow).
Hypotheses (QR : qr_ok qr) (RAND : forall m, randn_ok (rand m)) (INNER : inner_ok rsvd).
Hypotheses (P0 : (0 < r0)%N) (P1 : (0 < r1)%N) (P2 : (0 < r2)%N) (NI : (0 < n_iter)%N).
Hypothesis CROP : get_df_with_cropped_pos_column table L s = Ok data.
Hypothesis TWO : Peano.le 2 (length (catalogue (keep table))).
Variables (rt : nat -> mode -> routines R) (chunks : list (list DataPrep_model.row)) (x0 x : @nti_state R) (st0 : ti_state).
Hypotheses (RT : forall t md, rt_ok (rt t md)) (LL : forall t md, rt_lossless (rt t md)).
Hypothesis ET : nti_train 0 +%R *%R of_val qr rand rsvd norm norm0 grew L (r0, r1, r2) a ainv n_iter force data nil = Ok x0.
Hypothesis EX : forall c, inside (n_rows x0 0) (n_rows x0 1) L c -> value L x0 c = history_value of_val (nt_seq x0) c.
Hypothesis ED : tdrec_train L (Z.of_nat r0, Z.of_nat r1, Z.of_nat r2) data nil = Ok st0.
Hypothesis LS : lossless_stream of_val exceeds_eps is_one cfg r0 r1 r2 L a ainv rt s x0 st0 chunks.
Hypothesis ES : nti_stream 0 1 +%R *%R (fun y z => y - z) of_val exceeds_eps is_one cfg L a ainv None rt s x0 chunks = Ok x.

Lemma lossless_reproduces : reproduces x (history_value of_val (nt_seq x)) (1%:M : 'M[R]_L).
Proof.
  have [st [ET' F0 M0 _]] := good_train Sa Si KEEP QR RAND INNER P0 P1 P2 NI CROP TWO ET.
  have E1 : Ok st0 = Ok st by rewrite -ED -ET'. case: E1 => E1. subst st.
  have [W0 [_ [_ [_ [_ AL0]]]]] := Tirec_stream.tirec_stream_main (nc_variant cfg) L (Z.of_nat r0, Z.of_nat r1, Z.of_nat r2) s table data nil st0 st0 CROP ED erefl.
  have H := Nti_sim.stream_sim of_val exceeds_eps IS1 cfg (att := None) I Sa Si RT s chunks W0 F0 M0.
  rewrite ES in H. case: H => st' EST [F' M'].
  have [W' _] := Tirec_stream.tirec_stream_main (nc_variant cfg) L (Z.of_nat r0, Z.of_nat r1, Z.of_nat r2) s table data chunks st0 st' CROP ED EST.
  have T := Nti_track.stream_tracks V0 VD IS1 Sa Si NV RT LL W0 AL0 F0 M0 ES EST LS.
  have T0 := Nti_track.history_inside V0 W0 F0 EX.
  apply: (history_reproduces V0 V1 W' F'); first exact: unitmx1.
  move=> u i q Hu Hi. rewrite T T0 addrC subrK (bigD1 q) //= !mxE eqxx mulr1 big1 ?addr0 // => p NP.
  by rewrite !mxE (negbTE NP) mulr0.
Qed.

Theorem lossless_anything :
  let P := List.app (keep table) (List.concat (List.map keep chunks)) in
  [/\ (forall u i, List.In u (List.map r_user P) -> List.In i (List.map r_item P) -> ~ List.In i (recent L P u) ->
         score_of (nti_rec 0 +%R *%R x) u i = Some 0),
      (forall k users rows, Peano.le 1 k ->
         (exists ap, argpartition_contract le ap /\ nti_recommend 0 +%R *%R ap k x users false = Ok rows) <->
         List.Forall2 (fun u row => List.In u (List.map r_user P) /\ offer k P u row) users rows)
    & (forall k users test want, Peano.le 1 k -> users <> nil ->
         List.Forall2 (fun u t => List.In u (List.map r_user P) /\ List.In t (unseen P u) /\ Peano.lt k (length (unseen P u))) users test ->
         length want = length users ->
         exists ap rows h, [/\ argpartition_contract le ap, nti_recommend 0 +%R *%R ap k x users false = Ok rows, hr rows test = Ok h,
           List.Forall2 (fun rt b => List.In rt.2 rt.1 <-> b = true) (List.combine rows test) want
           & Qeq h (Qdiv (inject_Z (Z.of_nat (length (List.filter id want)))) (inject_Z (Z.of_nat (length users))))])].
Proof.
  move=> P.
  have E : (do x0 <- nti_train 0 +%R *%R of_val qr rand rsvd norm norm0 grew L (r0, r1, r2) a ainv n_iter force data nil;
    nti_stream 0 1 +%R *%R (fun y z => y - z) of_val exceeds_eps is_one cfg L a ainv None rt s x0 chunks) = Ok x.
  { rewrite ET. cbn [bind]. exact: ES. }
  exact: (anything IS1 L2 (att := None) I Sa Si KEEP QR RAND INNER P0 P1 P2 NI CROP TWO RT E lossless_reproduces).
Qed.
End Lossless.
