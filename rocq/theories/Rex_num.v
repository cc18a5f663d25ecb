(** Whole experiments of TDRecRe. *)
From Coq Require Import ZArith QArith.
From Coq Require List.
From Verif Require Import Prelude DataPrep_model DataPrep_spec History_model History_spec Recommend_model Recommend_spec Psi_model Tirec_model Tirec_spec
  Tensor_model Matrix_model Attention_model Attention_spec LinAlg_model Tucker_model Hooi_model Upd_model Nti_model Dynamic_model Dynamic_spec Full_spec Seqx_spec Seqx_model Rex_spec Rex_model.
From Verif Require Retrain_model DataPrep_main DataPrep_proofs History_proofs History_main Full_rec Full_exp Nti_train Nti_scores Attention_main Seqx_book Seqx_upd Seqx_inv Tdx_book Tdx_model Rex_book Rex_rec Rex_gen.
Set Warnings "-notation-overridden".
From mathcomp Require Import all_ssreflect all_algebra.
From Coq Require Import Lia.
From Verif Require Import LinAlg_spec Tucker_spec Hooi_spec Upd_spec Exact_spec Num_spec Nti_spec.
From Verif Require Nti_sim LinAlg_bridge Hooi_run.
Set Implicit Arguments.
Unset Strict Implicit.
Unset Printing Implicit Defensive.
Import Order.TTheory GRing.Theory Num.Theory.
Local Open Scope ring_scope.

Section Re.
Variable R : realFieldType.
Variable of_val : Z -> R.
Variables (L r0 r1 r2 : nat) (a ainv : mat R).
Hypotheses (L2 : Peano.le 2 L) (P0 : (0 < r0)%N) (P1 : (0 < r1)%N) (P2 : (0 < r2)%N).
Hypotheses (Sa : shape L L a) (Si : shape L L ainv).
Variables (qr : mat R -> res (mat R * mat R)) (rand : nat -> nat -> nat -> mat R) (rsvd : nat -> mat R -> nat -> res (mat R * list R * mat R)).
Hypotheses (QR : qr_ok qr) (RAND : forall m, randn_ok (rand m)) (INNER : inner_ok rsvd).
Variables (N : Type) (tnorm : ten R -> N) (norm0 : N) (grew : N -> N -> bool) (n_iter : nat) (force : bool).
Hypothesis NI : (0 < n_iter)%N.
Variable argpart : nat -> list R -> nat -> list nat.
Let le (x y : R) : bool := x <= y.
Hypothesis AP : argpartition_contract le argpart.
Variable k : nat.
Hypothesis k1 : Peano.le 1 k.
Notation sub := (fun x y : R => x - y).
Notation train := (seq_train 0 +%R *%R of_val L (r0, r1, r2) a ainv qr rand rsvd tnorm norm0 grew n_iter force).
Notation ntrain := (nti_train 0 +%R *%R of_val qr rand rsvd tnorm norm0 grew L (r0, r1, r2) a ainv n_iter force).
Notation retrain := (re_train 0 +%R *%R of_val L (r0, r1, r2) a ainv qr rand rsvd tnorm norm0 grew n_iter force).
Notation nti_rec := (nti_rec 0 +%R *%R).
Notation recommend := (nti_recommend 0 +%R *%R argpart k).
Notation scores := (nti_scores 0 +%R *%R).
Notation booked := Rex_book.booked.

Definition excuse (e : exn) : Prop := (exists x, qr x = Err e) \/ (exists t x r, rsvd t x r = Err e).

Lemma ntrain_books data x : ntrain data nil = Ok x -> exists td, [/\ tdrec_prepare data nil L = Ok td, nt_maps x = td_mappings td, nt_history x = td_history td & nt_seq x = td_seq td].
Proof.
  rewrite /nti_train. case: tdrec_prepare => [td|] //. cbn [bind]. case: (td_shape td) => [[s0 s1] s2]. case: ga_satf => [[[fs core] l]|e] //. cbn [bind].
  case: core => [c|] //. cbn [bind]. case: position_embeddings => [[aw la]|e] //. cbn [bind]. move=> [<-]. by exists td.
Qed.

(** Factors with more rows than there are items do not fit. *)
Lemma init_fits inds vals n0 n1 n2 xs y : Hooi_model.ga_satf 0 +%R *%R qr rand rsvd tnorm norm0 grew inds vals (n0, n1, n2) (r0, r1, r2) a n_iter None (Some xs) force tt = Ok y ->
  (mr (factor xs 1) <= n1)%N \/ mr (factor xs 1) = 1%N.
Proof.
  rewrite /ga_satf. case: check_params => // ?. cbn [bind]. rewrite /init_factors.
  case: (init_factor _ _ _ _ _ 0) => [f0|] //. cbn [bind].
  have := Hooi_run.init_factor_ok QR RAND (mode := 1) (erefl : axis (n0, n1, n2) 1 = n1) (erefl : axis (r0, r1, r2) 1 = r1).
  case: (init_factor _ _ _ _ _ 1) => [f1|] //. cbn [bind]. move=> [[S1 _] _].
  case: (init_factor _ _ _ _ _ 2) => [f2|] //. cbn [bind]. case: (overlay _ _ (factor xs 0)) => // ?. cbn [bind].
  change (factor (f0, f1, f2) 1) with f1. rewrite /overlay S1.
  case E: (Nat.eqb (mr (factor xs 1)) (Nat.min (mr (factor xs 1)) n1)).
  - move=> _. left. apply/ssrnat.leP. move/Nat.eqb_spec: E. lia.
  - cbn [orb]. case E1: (Nat.eqb (mr (factor xs 1)) 1); last by []. move=> _. right. exact/Nat.eqb_spec.
Qed.

Definition fine (x : @nti_state R) (E P : list irow) : Prop :=
  [/\ booked L (nt_maps x) (nt_history x) (nt_seq x) E P, model_ok r0 r1 r2 L x,
      position_embeddings 0 +%R *%R a ainv (factor (nt_fs x) 2) = Ok (nt_aw x, nt_last x),
      Z.of_nat (n_rows x 0) = n_indices (m_users (nt_maps x)) & Z.of_nat (n_rows x 1) = n_indices (m_items (nt_maps x))].

Lemma train_outcome table data x : get_df_with_cropped_pos_column table L true = Ok data -> nt_seq x = nil ->
  match train x data with
  | Ok x' => seq_trainable r0 r1 r2 L (List.map p_row data) /\ fine x' (List.map p_row data) (List.map p_row data)
  | Err e => seq_trainable r0 r1 r2 L (List.map p_row data) -> excuse e
  end.
Proof.
  move=> CROP E0. rewrite /seq_train E0. have L1 : Peano.le 1 L by lia.
  have KEEP := Rex_book.keep_crops L L1. have EK := Rex_book.cropped_kept _ _ _ CROP.
  have TI := Seqx_inv.train_iff L true _ table data r0 r1 r2 KEEP CROP. rewrite EK in TI.
  have := Nti_sim.train_sim of_val Sa Si tnorm norm0 grew force nil QR RAND INNER P0 P1 P2 NI (Nti_train.cropped_positions _ _ _ _ CROP).
  case E: (ntrain data nil) => [y|e].
  - move=> [st Et [F M PE]]. split; first by apply/TI; exists st.
    have I := Seqx_inv.sinv_train _ _ _ _ _ _ _ KEEP CROP Et. rewrite EK in I.
    have [CU CI] := Seqx_book.sinv_counts _ _ _ I. have [FM FH FS [F0 F1]] := F.
    have [BU [BI [NU [NJ _]]]] := Seqx_book.sinv_wf _ _ _ I.
    have [td [EP E1 E2 E3]] := ntrain_books E.
    split=> //.
    + rewrite E1 E2 E3. exact: (Rex_book.booked_first L data td L1 EP).
    + by rewrite FM -NU /nusers F0.
    + by rewrite FM -NJ /nitems F1.
  - case=> [Et|H] T; last by case: H => H; [left|right].
    move/TI: T => [st E']. by rewrite Et in E'.
Qed.

Lemma retrain_outcome x E P d : fine x E P -> (2 <= n_rows x 1)%N -> d <> nil -> List.incl (List.map r_user P) (List.map r_user (List.map p_row d)) ->
  (forall p, List.In p d -> Z.le Z0 (p_pos p) /\ Z.le (p_pos p) (Z.sub (Z.of_nat L) (Zpos 1))) -> List.In (Z.sub (Z.of_nat L) (Zpos 1)) (List.map p_pos d) ->
  match retrain x d with
  | Ok x' => (exists i, newest (List.map r_item (List.app E (List.map p_row d))) i /\ List.In i (List.map r_item (List.map p_row d))) /\
             fine x' (List.app E (List.map p_row d)) (List.map p_row d)
  | Err e => (exists i, newest (List.map r_item (List.app E (List.map p_row d))) i /\ List.In i (List.map r_item (List.map p_row d))) -> excuse e
  end.
Proof.
  move=> [B M PE NU NJ] N2 NE UP PB PL. have L1 : Peano.le 1 L by lia.
  have [td [n0 [n1 [n2 [EP [SH [[N0 [N1 NN2]] [FR [LV [C0 [C0' [S1 [S2 [I2 [G2 B']]]]]]]]]]]]]]]
    := Rex_book.booked_next L _ _ _ _ _ _ L1 B NE UP (fun p Hp => proj1 (PB p Hp)).
  have E2 : n2 = L.
  { move: I2 => /List.in_map_iff [p [Ep Hp]]. have := PB p Hp. move: PL => /List.in_map_iff [q [Eq Hq]]. have := G2 q Hq. lia. }
  subst n2. rewrite /re_train EP. cbn [bind]. rewrite SH !Nat2Z.id.
  set inds := List.map Nti_train.natc (td_inds td) in FR.
  have -> : List.map (fun c : triple => (Z.to_nat (t_user c), Z.to_nat (t_item c), Z.to_nat (t_pos c))) (td_inds td) = inds by [].
  set vals := List.map of_val (td_vals td).
  have LV' : length vals = length inds by rewrite /vals /inds !List.map_length.
  have [[S0 Sv Sw] _ _ _ [V0 V1 V2 _ [F0 F1 F2]]] := M.
  have G0 : (n_rows x 0 <= n0)%N by apply/ssrnat.leP; lia.
  case Eg : (ga_satf _ _ _ _ _ _ _ _ _ _ _ _ _ _ _ _ _ _ _) => [[[fs core] []]|e]; cbn [bind].
  - have G1 : (n_rows x 1 <= n1)%N.
    { case: (init_fits Eg) => [//|E1]. by move: N2; rewrite /n_rows E1. }
    have HA : hooi_args n0 r0 n1 r1 L r2 inds vals.
    { split; first by split=> //; [exact: leq_trans F0 G0|exact: leq_trans F1 G1]. by split=> //; split. }
    have := Hooi_run.ga_run_main QR RAND INNER tnorm norm0 grew n_iter None (init := Some (nt_fs x)) force tt HA Sa.
    rewrite Eg. case; first by split; split=> //; [case: S0|case: Sv|case: Sw => ->|case: Sw].
    move=> kk [F [G [S [_ _ [_ K SW _] [EF EG _ P']]]]]. have K0 := K NI.
    have [T0 T1 T2 [O0 O1 O2]] := P' K0.
    have := SW kk.-1. rewrite prednK // => /(_ (leqnn kk)) [wa [m0 [m1 [m2 [m2' [_ _ _ _ [WC SC _]]]]]]].
    have -> : core = Some (G kk) by rewrite EG; case: (kk) K0. cbn [bind].
    have [[aw last] Ea] := Nti_sim.positions_ok Sa Si (introT ssrnat.leP NN2) T2. rewrite Ea. cbn [bind].
    have G1' : Z.le (n_indices (m_items (nt_maps x))) (Z.of_nat n1) by rewrite -NJ; apply inj_le; exact/ssrnat.leP.
    split; first exact: (proj1 S1 G1').
    rewrite /fine; cbn [nt_maps nt_history nt_seq nt_fs nt_aw nt_last]. split=> //.
    + rewrite /model_ok /n_rows; cbn [nt_fs nt_core]. rewrite (proj1 T0) (proj1 T1). split=> //. split=> //. split=> //; [exact: leq_trans F0 G0|exact: leq_trans F1 G1].
    + by rewrite /n_rows; cbn [nt_fs]; rewrite (proj1 T0).
    + by rewrite /n_rows; cbn [nt_fs]; rewrite (proj1 T1); exact: S2.
  - move=> ST. have G1 : (n_rows x 1 <= n1)%N by apply/ssrnat.leP; have := proj2 S1 ST; lia.
    have HA : hooi_args n0 r0 n1 r1 L r2 inds vals.
    { split; first by split=> //; [exact: leq_trans F0 G0|exact: leq_trans F1 G1]. by split=> //; split. }
    have := Hooi_run.ga_run_main QR RAND INNER tnorm norm0 grew n_iter None (init := Some (nt_fs x)) force tt HA Sa.
    rewrite Eg. case; first by split; split=> //; [case: S0|case: Sv|case: Sw => ->|case: Sw].
    + by left.
    + by case=> [H|[c [? [? [? []]]]]] //; right.
Qed.

(** Scores and recommendations. *)
Lemma le_trans' x y z : le x y = true -> le y z = true -> le x z = true.
Proof. rewrite /le => H1 H2. exact: Order.POrderTheory.le_trans H1 H2. Qed.
Lemma users_index x E P j : fine x E P -> Z.le 0 j /\ Z.lt j (Z.of_nat (n_rows x 0)) -> exists u, f_of (m_users (nt_maps x)) u = Some j.
Proof.
  move=> [B _ _ NU _] Hj. have [_ [FG RR]] := Rex_book.bk_bu _ _ _ _ _ _ B.
  have [u Hu] : exists u, g_of (m_users (nt_maps x)) j = Some u by apply RR; lia. by exists u; apply FG.
Qed.
Lemma scores_ok x E P u : fine x E P -> Z.le 0 u /\ Z.lt u (Z.of_nat (n_rows x 0)) ->
  exists sc, scores x u = Ok sc /\ length sc = n_rows x 1.
Proof.
  move=> F Hu. rewrite /nti_scores.
  have [uid Hd] := users_index F Hu. have [B M PE _ NJ] := F.
  have [d [j [Ed [Hj NPj]]]] := Rex_book.bk_fill _ _ _ _ _ _ B _ _ Hd.
  have [[_ _ SW] _ _ _ _] := M.
  have Pr : (L.-1 < L)%N by apply/ssrnat.ltP; lia.
  have [Ra Ca _] := Nti_scores.weight (e := Ordinal Pr) Sa Si SW erefl PE.
  have [SW1 _] := SW.
  have [_ US] := Attention_main.user_scores_main _ _ _ _ _ _ (LinAlg_bridge.RT [comRingType of R]) (nt_seq x) (factor (nt_fs x) 1) (factor (nt_fs x) 2) (nt_aw x) (nt_last x) u
    ltac:(by rewrite Ra SW1) Ca.
  have [_ [_ US1]] := US d Ed.
  have LP : Peano.lt 0 (length (latest_first d)).
  { have HJ : List.In j (latest_first d).
    { rewrite /latest_first -List.in_rev. apply List.filter_In. split=> //. by case: (Z.eqb_spec j PAD_VALUE). }
    by case: (latest_first d) HJ => //= *; lia. }
  have [||sc [E1 [Ls _]]] := US1; [| |by exists sc].
  - rewrite SW1. lia.
  - move=> t Ht. have Ht' : Peano.lt t (length (latest_first d)) by lia.
    have : List.In (List.nth t (latest_first d) Z0) (latest_first d) by exact: List.nth_In.
    move: (List.nth t (latest_first d) Z0) => i. rewrite /latest_first -List.in_rev => /List.filter_In [H1 H2].
    have NPi : i <> PAD_VALUE by move=> EP; move: H2; rewrite EP Z.eqb_refl.
    have := Rex_book.bk_in _ _ _ _ _ _ B u d i Ed H1 NPi. by rewrite -NJ.
Qed.
Lemma fine_describes x E P : fine x E P -> Rex_rec.rdescribes (nti_rec x) E P.
Proof.
  move=> F. have [B M PE NU NJ] := F. have [BU BI KU KI NW SUB HH _ _ _] := B.
  constructor; rewrite /Seqx_model.nti_rec; cbn [rs_mappings rs_n_users rs_n_items rs_history rs_scores]; try assumption.
  rewrite /wf_state. cbn [rs_mappings rs_n_users rs_n_items rs_history rs_scores].
  have RU : forall q u, f_of (m_users (nt_maps x)) q = Some u -> Z.le Z0 u /\ Z.lt u (Z.of_nat (n_rows x 0)).
  { move=> q u H. have := DataPrep_main.bij_f_nonneg _ _ _ BU H. rewrite NU. lia. }
  split.
  - move=> u j /HH [r [_ [H1 H2]]]. split; first exact: RU H1. have := DataPrep_main.bij_f_nonneg _ _ _ BI H2. rewrite NJ. lia.
  - split; first by move=> u Hu; exact: (scores_ok F Hu). split; first exact: RU.
    move=> j Hj. case: BI => _ [_ RR]. apply RR. rewrite -NJ. case: Hj => H1 H2. by split.
Qed.

Section Run.
Context {V T : Type}.
Variables (norm : mat R -> V) (div : V -> V -> V) (minus_one : V) (clock : nat -> T).
Variables (test_users : list Z) (hm : Z) (st0 : @nti_state R) (table : list irow) (data : list prow) (stream : list (list DataPrep_model.row)).
Hypothesis CROP : get_df_with_cropped_pos_column table L true = Ok data.
Hypothesis E0 : nt_seq st0 = nil.
Notation n := (n_steps hm (length stream)).
Variable tables : nat -> list prow.
Hypothesis SUC : successive L data stream n tables.
Hypothesis TWO : Z.le 2 (n_items_in (List.map p_row data)).
Notation past := (kept tables).
Notation ever := (so_far tables).
Notation model_api := (re_api 0 +%R *%R of_val L (r0, r1, r2) a ainv qr rand rsvd tnorm norm0 grew n_iter force argpart k).
Notation experiment := (dynamical_experiment 0 sub norm div minus_one clock model_api (Dynamic_model.grow_3d L) test_users false hm st0 data stream).
Notation starts := (seq_trainable r0 r1 r2 L (kept tables 0)).
Notation fits := (newest_stays tables).
Notation chosen := (fun x t => best_from le (nti_rec x) (ever t) (past t)).

Definition good (x : @nti_state R) (d : list prow) (t : nat) : Prop :=
  [/\ d = tables t, fine x (ever t) (past t), exists u, length (rows_of u (past t)) = L,
      List.incl (List.map r_user (ever t)) (List.map r_user (past t)) & Peano.le 2 (length (catalogue (ever t)))].

Lemma so_far_S t : ever t.+1 = List.app (ever t) (past t.+1).
Proof. by rewrite /so_far (List.seq_S t.+1 0) List.map_app List.concat_app; cbn [List.map List.concat]; rewrite List.app_nil_r. Qed.
Lemma so_far_0 : ever 0%N = past 0%N.
Proof. by rewrite /so_far; cbn [List.seq List.map List.concat]; rewrite List.app_nil_r. Qed.
Lemma past_0 : past 0%N = List.map p_row data.
Proof. by rewrite /kept (proj1 SUC). Qed.

Lemma train_cases : match train st0 data with
  | Ok s => starts /\ good s data 0
  | Err e => starts -> excuse e end.
Proof.
  have := train_outcome CROP E0. rewrite -past_0. case: (train st0 data) => [x|e] //. move=> [H F]. split=> //.
  have [_ [_ [_ U]]] := H. rewrite /good so_far_0. split=> //.
  - by rewrite (proj1 SUC).
  - move: TWO. rewrite -past_0 /n_items_in /catalogue /ndistinct. lia.
Qed.
Lemma r_fine x d t : good x d t -> fine x (ever t) (past t).
Proof. by case. Qed.
Lemma r_users x d t : good x d t -> bij (m_users (nt_maps x)) Z0.
Proof. by move=> /r_fine [[]]. Qed.
Lemma r_items x d t : good x d t -> bij (m_items (nt_maps x)) Z0.
Proof. by move=> /r_fine [[]]. Qed.
Lemma users_same x d t u : good x d t -> (List.In u (List.map r_user (past t)) <-> List.In u (List.map r_user (ever t))).
Proof.
  move=> [_ _ _ I _]. split; last exact: I. case: t {I} => [|t]; first by rewrite so_far_0.
  by rewrite so_far_S List.map_app List.in_app_iff; right.
Qed.
Lemma r_known x d t y : good x d t -> known (nt_maps x) y = heard (ever t) y.
Proof.
  move=> G. have [B _ _ _ _] := r_fine G. have KU := Rex_book.bk_ku _ _ _ _ _ _ B (r_user y). have KI := Rex_book.bk_ki _ _ _ _ _ _ B (r_item y).
  have US := users_same (r_user y) G. rewrite /known /heard.
  have M1 : memZ (r_user y) (List.map r_user (ever t)) = (if f_of (m_users (nt_maps x)) (r_user y) is Some _ then true else false).
  { apply/idP/idP => [/Prelude_proofs.memZ_spec/(proj2 US)/(proj2 KU)|H]; first by case: (f_of _ _).
    apply/Prelude_proofs.memZ_spec/(proj1 US)/(proj1 KU). by case: (f_of _ _) H. }
  have M2 : memZ (r_item y) (List.map r_item (ever t)) = (if f_of (m_items (nt_maps x)) (r_item y) is Some _ then true else false).
  { apply/idP/idP => [/Prelude_proofs.memZ_spec/(proj2 KI)|H]; first by case: (f_of _ _).
    apply/Prelude_proofs.memZ_spec/(proj1 KI). by case: (f_of _ _) H. }
  rewrite M1 M2. by case: (f_of _ (r_user y)) => [?|]; case: (f_of _ (r_item y)).
Qed.
Lemma good_two x d t : good x d t -> Peano.le 2 (length (catalogue (ever t))).
Proof. by case. Qed.
Lemma r_rec_only x d t us b rows : good x d t -> recommend x us b = Ok rows -> forall u, List.In u us -> serves_from k (ever t) (past t) u.
Proof.
  move=> G E. apply (Rex_rec.recommend_iff _ le_trans' _ AP _ _ _ (fine_describes (r_fine G)) _ k1 (good_two G) us b). by exists rows.
Qed.
Lemma r_rec_if x d t us b : good x d t -> (forall u, List.In u us -> serves_from k (ever t) (past t) u) -> exists rows, recommend x us b = Ok rows.
Proof. move=> G H. by apply (Rex_rec.recommend_iff _ le_trans' _ AP _ _ _ (fine_describes (r_fine G)) _ k1 (good_two G) us b). Qed.
Lemma r_external x d t us rows : good x d t -> recommend x us false = Ok rows ->
  List.Forall2 (fun u row => offer_from k (ever t) (past t) u row /\ best_from le (nti_rec x) (ever t) (past t) u row) us rows.
Proof. move=> G E. exact: (Rex_rec.recommend_external _ le_trans' _ AP _ _ _ (fine_describes (r_fine G)) _ k1 (good_two G) us rows E). Qed.
Lemma r_internal x d t us rows : good x d t -> recommend x us true = Ok rows ->
  length rows = length us /\
  List.Forall (fun row => length row = k /\ List.NoDup row /\ (forall j, List.In j row -> Z.le Z0 j /\ Z.lt j (Z.of_nat (length (catalogue (ever t)))))) rows.
Proof. move=> G E. exact: (Rex_rec.recommend_internal _ le_trans' _ AP _ _ _ (fine_describes (r_fine G)) _ k1 (good_two G) us rows E). Qed.
Lemma r_shapes x d t : good x d t -> [/\ shape (n_rows x 0) r0 (factor (nt_fs x) 0), shape (n_rows x 1) r1 (factor (nt_fs x) 1),
  n_rows x 0 = ndistinct (List.map r_user (ever t)) & n_rows x 1 = ndistinct (List.map r_item (ever t))].
Proof.
  move=> G. have [B M PE NU NJ] := r_fine G. have [[S0 S1 _] _ _ _ _] := M. split=> //; apply: Nat2Z.inj.
  - rewrite NU. apply: (Seqx_book.bij_count _ _ (r_users G)) => q. rewrite -(users_same q G). exact: (Rex_book.bk_ku _ _ _ _ _ _ B q).
  - rewrite NJ. apply: (Seqx_book.bij_count _ _ (r_items G)) => q. exact: (Rex_book.bk_ki _ _ _ _ _ _ B q).
Qed.
Lemma r_n x d t : good x d t -> n_rows x 1 = length (catalogue (ever t)).
Proof. by move=> G; case: (r_shapes G). Qed.
Lemma r_u x d t : good x d t -> exists u, Ok (factor (nt_fs x) 0) = Ok u /\ mr u = length (List.nodup Z.eq_dec (List.map r_user (ever t))) /\ mc u = r0.
Proof. move=> G; case: (r_shapes G) => [[S1 S2] _ S3 _]. exists (factor (nt_fs x) 0). by split. Qed.
Lemma r_v x d t : good x d t -> exists u, Ok (factor (nt_fs x) 1) = Ok u /\ mr u = length (catalogue (ever t)) /\ mc u = r1.
Proof. move=> G; case: (r_shapes G) => [_ [S1 S2] _ S3]. exists (factor (nt_fs x) 1). by split. Qed.

Lemma r_step t c x d : Peano.lt t n -> List.nth_error stream t = Some c -> good x d t ->
  match Rex_gen.upd_step model_api (Dynamic_model.grow_3d L) false (x, d) c with
  | Ok (s', d') => newest_stays tables t /\ good s' d' t.+1
  | Err e => newest_stays tables t -> excuse e end.
Proof.
  move=> Ht Ec G. rewrite /Rex_gen.upd_step. cbn [fst snd]. rewrite /Dynamic_model.grow_3d /Retrain_model.grow_table.
  have [Ed F [u Hu] UP G2] := G. subst d. have CR := proj2 SUC t c Ht Ec.
  have [IU [PB PL]] := Rex_book.next_table _ _ _ _ CR. have [Hu' PL'] := PL u Hu.
  have NE : tables t.+1 <> nil by move=> Z1; move: PL'; rewrite Z1.
  have R2 : (2 <= n_rows x 1)%N by apply/ssrnat.leP; rewrite (r_n G).
  rewrite CR. cbn [bind]. cbn [Dynamic_model.update re_api].
  have := retrain_outcome F R2 NE IU PB PL'. rewrite /newest_stays so_far_S.
  move: (retrain x (tables t.+1)) => res. case: res => [x'|e]; cbn [bind]; last by [].
  move=> [H1 H2]. split; first exact: H1. rewrite /good so_far_S. split=> //.
  - by exists u.
  - move=> w. rewrite List.map_app => /List.in_app_iff [Hw|//]. exact: IU (UP _ Hw).
  - have := Full_exp.distinct_grow r_item (ever t) (past t.+1). rewrite /catalogue in G2 *. lia.
Qed.
Lemma r_more t : Peano.lt t.+1 n -> Rex_gen.users_grow ever t.
Proof. move=> _. rewrite /Rex_gen.users_grow so_far_S. exact: Full_exp.distinct_grow. Qed.
Lemma r_more' t : Peano.lt t.+1 n -> Rex_gen.items_grow ever t.
Proof. move=> _. rewrite /Rex_gen.items_grow so_far_S. exact: Full_exp.distinct_grow. Qed.

Lemma fit_iff : Rex_gen.all_fit test_users hm stream k past ever fits starts <-> reinitialisable r0 r1 r2 L k test_users stream tables n.
Proof. by []. Qed.
Lemma run_outcome : match experiment with
  | Ok _ => reinitialisable r0 r1 r2 L k test_users stream tables n
  | Err e => reinitialisable r0 r1 r2 L k test_users stream tables n -> excuse e end.
Proof.
  exact: (@Rex_gen.outcome_main _ _ _ _ _ 0 sub norm div minus_one clock model_api (Dynamic_model.grow_3d L) test_users false hm st0 data stream k k1
    past ever good fits starts chosen r0 r1 excuse train_cases r_users r_items r_known r_rec_only r_rec_if r_external r_internal r_n r_u r_v r_step r_more r_more').
Qed.
Lemma run_report dyn : experiment = Ok dyn -> exists model : nat -> @nti_state R,
  train st0 data = Ok (model 0%N) /\
  (forall t c, Peano.lt t n -> List.nth_error stream t = Some c ->
     retrain (model t) (tables t.+1) = Ok (model t.+1) /\
     exists h q, List.nth_error (d_hr dyn) t = Some h /\ List.nth_error (d_mrr dyn) t = Some q /\
       report_from k (best_from le (nti_rec (model t)) (ever t) (past t)) (ever t) (past t) c h q) /\
  length (d_hr dyn) = n /\ length (d_mrr dyn) = n /\ length (d_wji dyn) = Nat.sub n 1 /\
  List.Forall (fun w => Qle 0 w /\ Qle w 1) (d_wji dyn).
Proof.
  move=> E. have [model [tbl [H1 [H2 [H3 H4]]]]] := (@Rex_gen.report_main _ _ _ _ _ 0 sub norm div minus_one clock model_api (Dynamic_model.grow_3d L) test_users false hm st0 data stream k k1
    past ever good fits starts chosen excuse train_cases r_users r_items r_known r_rec_only r_rec_if r_external r_internal r_n r_step dyn E).
  have TB : forall t, Peano.le t n -> tbl t = tables t.
  { elim=> [|t IH] Ht; first by rewrite H2 (proj1 SUC).
    have [c Ec] := Rex_gen.chunk_at hm stream k k1 t Ht. have [[U1 _] _] := H3 t c Ht Ec.
    rewrite (IH (Nat.lt_le_incl _ _ Ht)) /Dynamic_model.grow_3d /Retrain_model.grow_table (proj2 SUC t c Ht Ec) in U1. by case: U1. }
  exists model. split; [exact: H1|]. split; [|exact: H4].
  move=> t c Ht Ec. have [[U1 U2] HQ] := H3 t c Ht Ec. split; last exact: HQ. rewrite -(TB t.+1 Ht). exact: U2.
Qed.
End Run.
End Re.
