(** One configuration of the search for the parameters of TDRec. *)
From Coq Require Import ZArith QArith.
From Coq Require List.
From Verif Require Import Prelude DataPrep_model DataPrep_spec History_model History_spec Recommend_model Recommend_spec Psi_model Tirec_model Tirec_spec Search_model Search_spec
  Training_model Tensor_model Tensor_spec Matrix_model Attention_model Attention_spec LinAlg_model Tucker_model Hooi_model Upd_model Nti_model Full_spec Seqx_spec Seqx_model Hps_model Hps_spec Hpt_model.
From Verif Require DataPrep_main Full_rec Attention_proofs Nti_train Seqx_book Seqx_inv Rex_book History_main Hps_val.
Set Warnings "-notation-overridden".
From mathcomp Require Import all_ssreflect all_algebra.
From Coq Require Import Lia.
From Verif Require Import LinAlg_spec Tucker_spec Hooi_spec Upd_spec Exact_spec Num_spec Nti_spec Hpt_spec.
From Verif Require Hooi_main Hooi_run Hooi_final Hooi_ascent Search_bridge Nti_sim LinAlg_bridge Seqx_num.
Set Implicit Arguments.
Unset Strict Implicit.
Unset Printing Implicit Defensive.
Import Order.TTheory GRing.Theory Num.Theory.
Local Open Scope ring_scope.

Section Callback.
Variable R : comRingType.
Variables (qr : mat R -> res (mat R * mat R)) (rand : nat -> nat -> nat -> mat R) (rsvd : nat -> mat R -> nat -> res (mat R * list R * mat R)).
Hypotheses (QR : qr_ok qr) (RAND : forall m, randn_ok (rand m)) (INNER : inner_ok rsvd).
Variables (N C : Type) (norm : ten R -> N) (norm0 : N) (grew : N -> N -> bool).
Variables (n0 r0 n1 r1 n2 r2 : nat) (inds : list cell) (vals : list R) (att : mat R).
Hypotheses (ARGS : hooi_args n0 r0 n1 r1 n2 r2 inds vals) (ATT : shape n2 n2 att).
Variable c : @callback R C.
Notation sweeps := (sweep n0 r0 n1 r1 r2 (dense (List.combine inds vals)) (mx n2 n2 att) rsvd).

(** An exception of the callback comes from the factors of a sweep. *)
Lemma loop_error left : forall i fs core old st e, shape n1 r1 (factor fs 1) -> shape n2 r2 (factor fs 2) ->
  ga_loop 0 +%R *%R rsvd norm grew inds vals (n0, n1, n2) (r0, r1, r2) att (Some c) false left i fs core old st = Err e ->
  (exists t x r, rsvd t x r = Err e) \/ exists s t f f' g, sweeps t f f' g /\ c s f' g = Err e.
Proof.
  elim: left => [|left IH] i fs core old st e H1 H2 //.
  rewrite Hooi_main.ga_loop_step. have := Hooi_main.ga_step_ok INNER ARGS ATT i H1 H2.
  case: Hooi_main.ga_step => [[fs' g]|e']; cbn [bind]; last by move=> H [<-]; left.
  move=> [SW [_ G1 G2] _ _]. rewrite /decision. case E: (c st fs' g) => [[st' b]|e'].
  - case: b E => E //. exact: IH.
  - move=> [<-]. right. by exists st, i, fs, fs', g.
Qed.

Lemma satf_error n_iter st e :
  ga_satf 0 +%R *%R qr rand rsvd norm norm0 grew inds vals (n0, n1, n2) (r0, r1, r2) att n_iter (Some c) None false st = Err e ->
  (exists x, qr x = Err e) \/ (exists t x r, rsvd t x r = Err e) \/ exists s t f f' g, sweeps t f f' g /\ c s f' g = Err e.
Proof.
  have [[L0 L1 L2] [V _]] := ARGS.
  rewrite /ga_satf /check_params (introT (Hooi_run.rank_validE r0 r1 r2) V). cbn [bind]. rewrite /init_factors.
  have := Hooi_run.init_factor_ok QR RAND (mode := 0) (erefl : axis (n0, n1, n2) 0 = n0) (erefl : axis (r0, r1, r2) 0 = r0).
  case: (init_factor _ _ _ _ _ 0) => [f0|e']; cbn [bind]; last by move=> H [<-]; left. move=> _.
  have := Hooi_run.init_factor_ok QR RAND (mode := 1) (erefl : axis (n0, n1, n2) 1 = n1) (erefl : axis (r0, r1, r2) 1 = r1).
  case: (init_factor _ _ _ _ _ 1) => [f1|e']; cbn [bind]; last by move=> H [<-]; left. rewrite (minn_idPr L1) => -[S1 _].
  have := Hooi_run.init_factor_ok QR RAND (mode := 2) (erefl : axis (n0, n1, n2) 2 = n2) (erefl : axis (r0, r1, r2) 2 = r2).
  case: (init_factor _ _ _ _ _ 2) => [f2|e']; cbn [bind]; last by move=> H [<-]; left. rewrite (minn_idPr L2) => -[S2 _].
  move=> H. right. exact: (loop_error _ _ H).
Qed.
End Callback.

Section Config.
Variable R : realFieldType.
Variable of_val : Z -> R.
Variables (L r0 r1 r2 : nat) (decay : Q -> nat -> R) (inv : mat R -> res (mat R)) (f : Q).
Hypotheses (L2 : Peano.le 2 L) (P0 : (0 < r0)%N) (P1 : (0 < r1)%N) (P2 : (0 < r2)%N).
Hypothesis INV : inv_ok inv.
Variables (qr : mat R -> res (mat R * mat R)) (rand : nat -> nat -> nat -> mat R) (rsvd : nat -> mat R -> nat -> res (mat R * list R * mat R)).
Hypotheses (QR : qr_ok qr) (RAND : forall m, randn_ok (rand m)) (INNER : inner_ok rsvd).
Variables (N : Type) (tnorm : ten R -> N) (norm0 : N) (grew : N -> N -> bool) (n_iter : nat).
Hypothesis NI : (0 < n_iter)%N.
Variable argpart : nat -> list R -> nat -> list nat.
Let le (x y : R) : bool := x <= y.
Hypothesis AP : argpartition_contract le argpart.
Variable k : nat.
Hypothesis k1 : Peano.le 1 k.
Variables (train : list prow) (valid : list DataPrep_model.row).
Hypothesis CROP : get_df_with_cropped_pos_column (List.map p_row train) L true = Ok train.
Notation P := (List.map p_row train).
Hypothesis TWO : Z.le 2 (n_items_in P).
Notation score := (sweep_score 0 +%R *%R argpart k).
Notation run := (tdrec_metrics 0 1 +%R *%R of_val L decay inv qr rand rsvd tnorm norm0 grew n_iter argpart k train valid).

Definition excuse (e : exn) : Prop :=
  (exists x, inv x = Err e) \/ (exists x, qr x = Err e) \/ (exists t x r, rsvd t x r = Err e).

Section Trained.
Variables (a ainv : mat R) (td : train_data) (n0 n1 : nat).
Hypotheses (Sa : shape L L a) (Si : shape L L ainv).
Hypothesis EP : tdrec_prepare train nil L = Ok td.
Hypothesis SH : td_shape td = (Z.of_nat n0, Z.of_nat n1, Z.of_nat L).
Hypothesis V : Nti_train.rank_valid r0 r1 r2.
Hypothesis F : Peano.le r0 n0 /\ Peano.le r1 n1 /\ Peano.le r2 L.
Notation sweeps := (sweep n0 r0 n1 r1 r2 (tensor_of of_val td) (mx L L a) rsvd).

Lemma counts : n0 = ndistinct (List.map r_user P) /\ n1 = ndistinct (List.map r_item P).
Proof.
  have KEEP := Rex_book.keep_crops L ltac:(lia). have EK := Rex_book.cropped_kept _ _ _ CROP.
  have [TOK _] := Nti_train.train_nat L r0 r1 r2 train nil td n0 n1 L EP SH.
  have E := TOK V (conj (proj1 F) (conj (proj1 (proj2 F)) (conj (proj2 (proj2 F)) erefl))).
  have I := Seqx_inv.sinv_train _ _ _ _ _ _ _ KEEP CROP E. rewrite EK in I.
  have [CU CI] := Seqx_book.sinv_counts _ _ _ I. move: CU CI. rewrite /nusers /nitems /n_users_in /n_items_in. cbn [ti_urows ti_irows].
  rewrite !History_proofs.zrange_length => /Nat2Z.inj -> /Nat2Z.inj ->. by [].
Qed.

(** The model with the factors of a sweep. *)
Lemma swept_good t fs fs' g : sweeps t fs fs' g -> exists aw last,
  position_embeddings 0 +%R *%R a ainv (factor fs' 2) = Ok (aw, last) /\
  Seqx_num.good L r0 r1 r2 a ainv (mkNti (td_mappings td) (td_history td) (td_seq td) fs' g aw last) P.
Proof.
  move=> SW. have KEEP := Rex_book.keep_crops L ltac:(lia). have EK := Rex_book.cropped_kept _ _ _ CROP.
  have [[L0 [L1 L2']] [V0 [V1 V2]]] := conj F V.
  have [S0 S1 S2] := Hooi_ascent.sweep_shapes SW.
  have [O0 O1 O2] := Hooi_ascent.sweep_orth INNER (introT ssrnat.leP L0) (introT ssrnat.leP L1) (introT ssrnat.leP L2') (introT ssrnat.leP V0) (introT ssrnat.leP V1) (introT ssrnat.leP V2) SW.
  have [wa [m0 [m1 [m2 [m2' [_ _ _ _ [WC SC _]]]]]]] := SW.
  have LP : (0 < L)%N by apply/ssrnat.ltP; lia.
  have [[aw last] E] := Nti_sim.positions_ok Sa Si LP S2. exists aw, last. split=> //.
  have [TOK _] := Nti_train.train_nat L r0 r1 r2 train nil td n0 n1 L EP SH.
  have E1 := TOK V (conj L0 (conj L1 (conj L2' erefl))).
  have I := Seqx_inv.sinv_train _ _ _ _ _ _ _ KEEP CROP E1. rewrite EK in I.
  eexists. split; first exact: I.
  - split=> //. rewrite /n_rows. cbn [nt_fs ti_urows ti_irows]. by rewrite !History_proofs.zrange_length (proj1 S0) (proj1 S1).
  - rewrite /model_ok /n_rows. cbn [nt_fs nt_core]. rewrite (proj1 S0) (proj1 S1). split=> //.
    rewrite /valid_ranks. split=> //; [exact/ssrnat.leP|exact/ssrnat.leP|exact/ssrnat.leP|split; exact/ssrnat.leP].
  - exact: E.
  - move: TWO. rewrite /n_items_in /catalogue /ndistinct. lia.
Qed.

Definition swept (fs : @factors R) (g : ten R) : @nti_state R :=
  let pe := match position_embeddings 0 +%R *%R a ainv (factor fs 2) with Ok p => p | Err _ => (mkMat 0 0 [::], [::]) end in
  mkNti (td_mappings td) (td_history td) (td_seq td) fs g pe.1 pe.2.

Lemma score_outcome t fs fs' g : sweeps t fs fs' g -> match score td a ainv valid fs' g with
  | Ok h => [/\ testable k nil P valid, position_embeddings 0 +%R *%R a ainv (factor fs' 2) = Ok (nt_aw (swept fs' g), nt_last (swept fs' g))
     & hit_report k (best le (nti_rec 0 +%R *%R (swept fs' g)) P) P valid h]
  | Err _ => ~ testable k nil P valid end.
Proof.
  move=> /swept_good [aw [last [E G]]]. rewrite /sweep_score /swept E. cbn [bind fst snd nt_aw nt_last]. cbv zeta.
  set x := mkNti _ _ _ _ _ _ _ in G *.
  have := @Hps_val.validate_outcome (nt_maps x) (fun us => nti_recommend 0 +%R *%R argpart k x us false) P k (best le (nti_rec 0 +%R *%R x) P)
    (Seqx_num.r_users L2 Sa Si k1 (d := nil) G) (Seqx_num.r_items L2 Sa Si k1 (d := nil) G) (fun y => Seqx_num.r_known L2 Sa Si k1 (d := nil) y G)
    (fun us => Seqx_num.r_rec L2 Sa Si AP k1 (d := nil) us false G) (fun us rows => @Seqx_num.r_external _ _ _ _ _ _ _ L2 Sa Si _ AP _ k1 _ nil _ us rows G) valid.
  case: validate => [h|e] //. by move=> [H1 H2].
Qed.
End Trained.

Lemma config_outcome : match run ((r0, r1, r2), f) with
  | Ok kept => [/\ seq_trainable r0 r1 r2 L P, testable k nil P valid & tried of_val L decay inv qr rand rsvd n_iter k ((r0, r1, r2), f) train valid kept]
  | Err e => seq_trainable r0 r1 r2 L P -> testable k nil P valid -> excuse e
  end.
Proof.
  rewrite /tdrec_metrics /attention_pair.
  have := Attention_proofs.attention_cells_main 0 (decay f) L.
  case Ea: (get_global_attention 0 (decay f) L) => [a|e]; last by move=> [_ E]; lia. move=> [_ [_ [Ra [Ca _]]]]. cbn [bind].
  have Sa : shape L L a by split.
  case Ei: (inv a) => [ainv|e]; cbn [bind]; last by move=> _ _; left; exists a.
  have Si : shape L L ainv. { have [H1 H2] := INV Ei. by split; [rewrite H1|rewrite H2]. }
  have KEEP := Rex_book.keep_crops L ltac:(lia). have EK := Rex_book.cropped_kept _ _ _ CROP.
  have TI := Seqx_inv.train_iff L true _ P train r0 r1 r2 KEEP CROP. rewrite EK in TI.
  case EP: (tdrec_prepare train nil L) => [td|e]; cbn [bind]; last first.
    move=> /TI [st E]. by rewrite (Nti_train.train_prepare _ _ _ _ _ EP) in E.
  have [n0 [n1 [n2 [[N0 [N1 N2]] [SH [FR LV]]]]]] := Nti_train.prepare_nat train nil L td (Nti_train.cropped_positions _ _ _ _ CROP) EP.
  have [TOK [TRT TVE]] := Nti_train.train_nat L r0 r1 r2 train nil td n0 n1 n2 EP SH.
  rewrite SH !Nat2Z.id.
  set inds := List.map _ (td_inds td). set vals := List.map of_val (td_vals td).
  have LV' : length vals = length inds by rewrite /vals /inds !List.map_length.
  have FR' : List.Forall (in_range (n0, n1, n2)) inds by exact: FR.
  have VV : [/\ (r0 <= r1 * r2)%N, (r1 <= r0 * r2)%N & (r2 <= r0 * r1)%N] <-> Nti_train.rank_valid r0 r1 r2.
    by rewrite /Nti_train.rank_valid; split=> [[/ssrnat.leP ? /ssrnat.leP ? /ssrnat.leP ?]|[/ssrnat.leP ? [/ssrnat.leP ? /ssrnat.leP ?]]].
  have FF : [/\ (r0 <= n0)%N, (r1 <= n1)%N, (r2 <= n2)%N & L = n2] <-> (Peano.le r0 n0 /\ Peano.le r1 n1 /\ Peano.le r2 n2 /\ n2 = L).
    by split=> [[/ssrnat.leP ? /ssrnat.leP ? /ssrnat.leP ? ?]|[/ssrnat.leP ? [/ssrnat.leP ? [/ssrnat.leP ? ?]]]].
  set cb := exit_callback _ _.
  have := Hooi_final.ga_checks_main QR RAND INNER tnorm norm0 grew (Some cb) false cb_init
            (introT ssrnat.leP N0) (introT ssrnat.leP N1) (introT ssrnat.leP N2) P0 P1 P2 LV' FR' Sa NI.
  case Eg : (ga_satf _ _ _ _ _ _ _ _ _ _ _ _ _ _ _ _ _ _ _) => [[[fs core] st]|e]; cbn [bind].
  - move=> [V [F0 F1 F2 EL]]. subst n2.
    have HA : hooi_args n0 r0 n1 r1 L r2 inds vals by [].
    have V' := proj1 VV V. have F' := proj1 FF (And4 F0 F1 F2 erefl).
    have F'' : Peano.le r0 n0 /\ Peano.le r1 n1 /\ Peano.le r2 L by case: F' => ? [? [? _]].
    have [C0 C1] := counts EP SH V' F''.
    have [m [F [G [scores [St Sw [Ls Sc] [-> _] Stop]]]]] := Search_bridge.early_stopping_main QR RAND INNER HA Sa (p := 3) (score := score td a ainv valid) Eg.
    have m0 : (0 < m)%N by case: Stop => [[-> _]|[/andP[]]].
    have SO t : (t < m)%N -> exists s, [/\ List.nth_error scores t = Some s, testable k nil P valid,
        position_embeddings 0 +%R *%R a ainv (factor (F t.+1) 2) = Ok (nt_aw (swept a ainv td (F t.+1) (G t.+1)), nt_last (swept a ainv td (F t.+1) (G t.+1)))
        & hit_report k (best le (nti_rec 0 +%R *%R (swept a ainv td (F t.+1) (G t.+1))) P) P valid s].
    { move=> Lt. have [s Hs Es] := Sc t Lt. have := score_outcome Sa Si EP SH V' F'' (Sw t Lt). rewrite Es. move=> [H1 H2 H3]. by exists s. }
    have [s0 [_ T0 _ _]] := SO 0%N m0.
    have := SO m.-1. rewrite (prednK m0) leqnn => /(_ isT) [_ [_ _ PE _]]. rewrite PE. cbn [bind].
    split=> //.
      by apply/TI; eexists; exact: (TOK V' F').
    exists a, ainv, td, F, (fun t => swept a ainv td (F t.+1) (G t.+1)), scores. rewrite -C0 -C1. split=> //.
    + move=> t s Hs. have Lt : (t < m)%N. { rewrite -Ls. apply/ssrnat.ltP. apply/List.nth_error_Some. by rewrite Hs. }
      have [s' [Hs' _ H2 H3]] := SO t Lt. move: Hs'. rewrite Hs => -[Es]. subst s'. split=> //. exact: (Sw t Lt).
    + case: Stop => [[H1 [H2 H3]]|[/andP[H0 H1] [H2 [H3 H4]]]].
      * left. split; first by rewrite Ls. by split.
      * right. exists (m - 1)%N. split; first by apply/ssrnat.ltP; rewrite subn1 (prednK H0).
        split; first by rewrite Ls subn1 prednK. split=> //. split=> // i /ssrnat.ltP. exact: H3.
  - move=> CH T TS. move/TI: T => [st0 E].
    have V : Nti_train.rank_valid r0 r1 r2.
    { case: (boolP [&& (r0 <= r1 * r2)%N, (r1 <= r0 * r2)%N & (r2 <= r0 * r1)%N]) => [/and3P H|H]; first by apply/VV.
      have NV : ~ Nti_train.rank_valid r0 r1 r2 by move=> /VV/and3P; apply/negP. by rewrite (TRT NV) in E. }
    have F : Peano.le r0 n0 /\ Peano.le r1 n1 /\ Peano.le r2 n2 /\ n2 = L.
    { case: (boolP [&& (r0 <= n0)%N, (r1 <= n1)%N, (r2 <= n2)%N & L == n2]) => [/and4P[? ? ? /eqP ?]|H]; first by apply/FF.
      have NF : ~ (Peano.le r0 n0 /\ Peano.le r1 n1 /\ Peano.le r2 n2 /\ n2 = L).
      { move=> /FF [H0 H1 H2 H3]. by move: H; rewrite H0 H1 H2 H3 eqxx. }
      by rewrite (TVE V NF) in E. }
    have [F0 F1 F2 EL] := proj2 FF F. subst n2.
    have HA : hooi_args n0 r0 n1 r1 L r2 inds vals by split=> //; split=> //; exact/VV.
    case: (satf_error QR RAND INNER HA Sa Eg) => [H|[H|[s [t [g0 [g1 [g [SW Ec]]]]]]]]; [by right; left|by right; right|exfalso].
    move: Ec. rewrite /cb /exit_callback.
    have := score_outcome Sa Si EP SH V (conj (proj1 F) (conj (proj1 (proj2 F)) (proj1 (proj2 (proj2 F))))) SW.
    by case: (score _ _ _ _ _ _).
Qed.
End Config.
