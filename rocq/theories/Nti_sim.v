(** An update with factors runs in lock-step with its data handling. *)
From Coq Require Import ZArith.
From Verif Require Import Prelude Prelude_proofs DataPrep_model DataPrep_spec History_model History_spec Psi_model Tirec_model Tirec_spec
  Tensor_model Tensor_spec Tensor_main Matrix_model Attention_model LinAlg_model Tucker_model Hooi_model Upd_model Nti_model Nti_book Nti_train.
From Verif Require Tirec_proofs Tirec_main Tirec_assembly History_proofs.
Set Warnings "-notation-overridden".
From mathcomp Require Import all_ssreflect all_algebra.
From Verif Require Import LinAlg_spec LinAlg_bridge LinAlg_emb Tucker_spec Tucker_bridge Tucker_main Tucker_emb Tucker_integ Hooi_spec Hooi_bridge
  Upd_spec Upd_block Upd_new Exact_spec Exact_main Nti_spec Nti_steps.
From Verif Require Hooi_run Hooi_final.
Set Implicit Arguments.
Unset Strict Implicit.
Unset Printing Implicit Defensive.
Import GRing.Theory.
Local Open Scope ring_scope.

Section Sim.
Variable R : comRingType.
Variable of_val : Z -> R.
Variables exceeds_eps is_one : R -> bool.
Hypothesis IS1 : forall y, is_one y = true -> y = 1.
Variables (cfg : nti_cfg) (L : nat) (a ainv : mat R) (att : option (mat R)) (r0 r1 r2 : nat).
Hypotheses (Ha : att_shape L att) (Sa : shape L L a) (Si : shape L L ainv).
Notation v := (nc_variant cfg).
Notation nstep rt := (nstep 0 1 +%R *%R (fun x y => x - y) of_val exceeds_eps is_one cfg L att rt).
Notation nti_update rt := (nti_update 0 1 +%R *%R (fun x y => x - y) of_val exceeds_eps is_one cfg L a ainv att rt).
Notation nti_stream := (nti_stream 0 1 +%R *%R (fun x y => x - y) of_val exceeds_eps is_one cfg L a ainv att).
Notation follows := (@follows R).

Definition raises (rt : mode -> routines R) (e : exn) : Prop := exists md, rt_raises (rt md) e.

Section Update.
Variable rt : mode -> routines R.
Hypothesis RT : forall md, rt_ok (rt md).

Lemma run_sim l : forall x st, follows x st -> model_ok r0 r1 r2 L x -> plan_ok L (nusers st) (nitems st) l ->
  match Nti_book.run (nstep rt) x l with
  | Ok x' => exists2 st', Nti_book.run (update_factors v L) st l = Ok st' & follows x' st' /\ model_ok r0 r1 r2 L x'
  | Err e => (exists e', Nti_book.run (update_factors v L) st l = Err e') \/ raises rt e
  end.
Proof.
  elim: l => [|[md d] l IH] x st F MO; first by exists st.
  cbn [plan_ok Nti_book.run]. case=> HR PO. have [F1 F2 F3 [F4 F5]] := F.
  have HR' : forall e, List.In e d -> Tirec_proofs.in_range md L (Z.of_nat (n_rows x 0)) (Z.of_nat (n_rows x 1)) e.
    by rewrite F4 F5.
  have := by_mode_result of_val exceeds_eps IS1 cfg (RT md) Ha MO HR'.
  rewrite /Nti_book.nstep. case: nti_by_mode => [x1|e]; cbn [step_result bind].
  - rewrite F4 F5. move=> [SZ OF [N0 N1] MO1].
    case Ed : d => [|e0 d0].
      have Ex : follows x1 st /\ plan_ok L (nusers st) (nitems st) l.
        move: PO N0 N1. rewrite Ed.
        have -> : length (Tirec_proofs.up_u md [::]) = 0%N by case: md {HR HR' SZ}.
        rewrite !Z.add_0_r !addn0 => PO N0 N1. split=> //. by rewrite OF in N0 N1 *; split.
      have := IH x1 st (proj1 Ex) MO1 (proj2 Ex). by [].
    rewrite -Ed. have NE : d <> nil by rewrite Ed.
    have [loc [EL FL]] := localize_exact md d.
    rewrite (update_factors_step v L st d md loc NE HR EL FL) SZ. cbn [bind]. apply: IH => //.
    + rewrite OF in N0 N1 *; split=> //. cbn [ti_urows ti_irows]. by rewrite !List.app_length.
    + rewrite /nusers /nitems in PO *. cbn [ti_urows ti_irows]. by rewrite !List.app_length !Nat2Z.inj_add.
  - case=> [SZ|H]; last by right; exists md.
    rewrite F4 F5 in SZ. left. exists ValueError.
    case: d HR HR' PO SZ => [|e0 d0] HR HR' PO SZ.
      by rewrite size_nil in SZ => //; exact: Zle_0_nat.
    have [loc [EL FL]] := localize_exact md (e0 :: d0).
    by rewrite (update_factors_step v L st (e0 :: d0) md loc _ HR EL FL) // SZ.
Qed.

Lemma positions_ok n r (w : mat R) : shape n n a -> shape n n ainv -> (0 < n)%N -> shape n r w ->
  exists p, position_embeddings 0 +%R *%R a ainv w = Ok p.
Proof.
  move=> SA SI N W. rewrite /position_embeddings.
  have [aw -> _] := dot_ok SA W. cbn [bind]. have [ST _] := transpose_ok SI.
  have [x -> [[E1 _] _]] := dot_ok ST W. cbn [bind]. rewrite /last_row E1.
  by case: n N {SA SI W ST E1} => // n _; eexists.
Qed.

Lemma add_all_ok x n m : v <> VTIRec -> model_ok r0 r1 r2 L x ->
  match add_all 0 1 +%R *%R (fun x y => x - y) exceeds_eps cfg rt x n m with
  | Ok x' => [/\ only_factors x x', n_rows x' 0 = (n_rows x 0 + n)%N, n_rows x' 1 = (n_rows x 1 + m)%N & model_ok r0 r1 r2 L x']
  | Err e => raises rt e
  end.
Proof.
  move=> NV MO. rewrite /add_all.
  have := add_vectors_ok exceeds_eps (cfg := cfg) (em := EUsers) (da := zeros2 0 n 0) (RT MNewUsers) MO erefl (fun E => False_ind _ (NV E)).
  case: Nti_model.add_vectors => [[fs1 core1]|e]; cbn [bind]; last by case=> [[? _]|H] //; exists MNewUsers.
  move=> [_]. rewrite /em_u /em_i addn0 => T1.
  have := add_vectors_ok exceeds_eps (cfg := cfg) (em := EItems) (da := zeros2 0 m 0) (RT MNewItems) T1 erefl (fun E => False_ind _ (NV E)).
  case: Nti_model.add_vectors => [[fs2 core2]|e]; cbn [bind]; last by case=> [[? _]|H] //; exists MNewItems.
  move=> [_]. rewrite /em_u /em_i addn0 => T2. have [E0 E1] := tucker_rows T2.
  have K0 : n_rows (set_factors x fs2 core2) 0 = (n_rows x 0 + n)%N := E0.
  have K1 : n_rows (set_factors x fs2 core2) 1 = (n_rows x 1 + m)%N := E1.
  by split=> //; rewrite /model_ok K0 K1.
Qed.

Lemma update_sim x st data s :
  ti_wf L st -> follows x st -> model_ok r0 r1 r2 L x ->
  match nti_update rt x data s with
  | Ok x' => exists2 st', ti_update v L st data s = Ok st' &
      [/\ follows x' st', model_ok r0 r1 r2 L x'
        & position_embeddings 0 +%R *%R a ainv (factor (nt_fs x') 2) = Ok (nt_aw x', nt_last x')]
  | Err e => (exists e', ti_update v L st data s = Err e') \/ raises rt e
  end.
Proof.
  move=> W F MO. have [F1 F2 F3 [F4 F5]] := F.
  have L1 : (0 < L)%N by case: MO => _ _ _ _ [_ _ _ [_ _ P2] [_ _ N2]]; exact: leq_trans P2 N2.
  case Ed : data => [|d0 dl].
    have -> : nti_update rt x [::] s = Err KeyError.
      by rewrite /Nti_model.nti_update /preprocess_raw_input_data; case: s.
    by left; exists KeyError; rewrite /ti_update /preprocess_raw_input_data; case: s.
  rewrite -Ed. have NE : data <> nil by rewrite Ed. clear d0 dl Ed.
  have [chunk0 [chunk [ms' [ku [ki P]]]]] :=
    Tirec_proofs.preprocess_spec L (ti_maps st) data s (proj1 W) (proj1 (proj2 W)) (elimT leP L1) NE.
  rewrite (ti_update_plan cfg L st data s W _ _ _ _ _ P).
  rewrite (nti_update_plan _ _ _ _ _ _ _ _ cfg L a ainv att rt st data s W _ _ _ _ _ P x F1 F3).
  have PG := plan_good cfg L st data s W _ _ _ _ _ P.
  case ED : (snd (get_train_tensor L (ti_seq st) (List.map triple_of chunk))) => [|e0 D0]; first by left; exists ValueError.
  rewrite ED in PG. set D := e0 :: D0 in PG *.
  have ST : match nti_start 0 1 +%R *%R (fun x y => x - y) exceeds_eps cfg L rt st chunk ms' ku ki x with
            | Ok y => follows y (ti_start cfg L st chunk ms' ku ki) /\ model_ok r0 r1 r2 L y
            | Err e => raises rt e end.
    rewrite /nti_start /ti_start. case Ev : v; try by split=> //; split.
    have MO' : model_ok r0 r1 r2 L (mkNti ms' (nt_history x) (fst (get_train_tensor L (ti_seq st) (List.map triple_of chunk)))
                 (nt_fs x) (nt_core x) (nt_aw x) (nt_last x)) := MO.
    have := add_all_ok ku ki _ MO'. rewrite Ev => /(_ (fun E => ltac:(discriminate E))).
    case: Nti_model.add_all => [y|e] // [OF N0 N1 MY]. split=> //. rewrite OF in N0 N1 *. split=> //.
    cbn [ti_urows ti_irows]. rewrite !List.app_length !Tirec_proofs.seqZ_length.
    by rewrite N0 N1 -F4 -F5.
  case: nti_start ST => [y|e]; cbn [bind]; last by right.
  move=> [Fy My]. have := run_sim Fy My PG.
  case: (Nti_book.run (nstep rt) y _) => [x1|e]; cbn [bind].
  - move=> [st1 -> [[G1 G2 G3 [G4 G5]] M1]]. cbn [bind]. rewrite /nti_finish.
    have [[_ _ W2] _ _ _ _] := M1. have [[aw last] E] := positions_ok Sa Si L1 W2. rewrite E. cbn [bind].
    exists (ti_finish chunk st1) => //. split=> //. split=> //.
    by rewrite /ti_finish /= G2.
  - case=> [[e' ->]|H]; [left; by exists e'|by right].
Qed.
End Update.

Lemma stream_sim rt : (forall t md, rt_ok (rt t md)) -> forall s chunks x st,
  ti_wf L st -> follows x st -> model_ok r0 r1 r2 L x ->
  match nti_stream rt s x chunks with
  | Ok x' => exists2 st', ti_stream v L s st chunks = Ok st' & follows x' st' /\ model_ok r0 r1 r2 L x'
  | Err e => (exists e', ti_stream v L s st chunks = Err e') \/ exists t, raises (rt t) e
  end.
Proof.
  move=> RT s chunks. rewrite /ti_stream. elim: chunks rt RT => [|c chunks IH] rt RT x st W F MO; first by exists st.
  cbn [Nti_model.nti_stream List.fold_left bind]. have := update_sim (RT 0%N) c s W F MO.
  have ERR : forall e, List.fold_left (fun acc c => do s0 <- acc; ti_update v L s0 c s) chunks (Err e) = Err e.
    by elim: chunks {IH} => //.
  case: Nti_model.nti_update => [x1|e]; cbn [bind].
  - move=> [st1 E [F1 M1 _]]. rewrite E.
    have [W1 _] := Tirec_assembly.tirec_partition_main _ _ _ _ _ _ W E.
    have := IH (fun t => rt t.+1) (fun t => RT t.+1) x1 st1 W1 F1 M1.
    case: Nti_model.nti_stream => [x'|e] //. case=> [H|[t H]]; [by left|right; by exists t.+1].
  - case=> [[e' ->]|H]; [left; exists e'; exact: ERR|by right; exists 0%N].
Qed.

Lemma train_sim (qr : mat R -> res (mat R * mat R)) rand (rsvd : nat -> mat R -> nat -> res (mat R * list R * mat R))
    (N : Type) (norm : ten R -> N) norm0 grew n_iter force data seq :
  qr_ok qr -> (forall m, randn_ok (rand m)) -> inner_ok rsvd ->
  (0 < r0)%N -> (0 < r1)%N -> (0 < r2)%N -> (0 < n_iter)%N ->
  (forall p, List.In p data -> Z.le 0 (p_pos p)) ->
  let td := tdrec_train L (Z.of_nat r0, Z.of_nat r1, Z.of_nat r2) data seq in
  match nti_train 0 +%R *%R of_val qr rand rsvd norm norm0 grew L (r0, r1, r2) a ainv n_iter force data seq with
  | Ok x => exists2 st, td = Ok st &
      [/\ follows x st, model_ok r0 r1 r2 L x
        & position_embeddings 0 +%R *%R a ainv (factor (nt_fs x) 2) = Ok (nt_aw x, nt_last x)]
  | Err e => td = Err e \/ (exists x, qr x = Err e) \/ (exists t x r, rsvd t x r = Err e)
  end.
Proof.
  move=> QR RAND INNER P0 P1 P2 NI POS td. rewrite /nti_train.
  case Ep : (tdrec_prepare data seq L) => [t|e]; cbn [bind]; last first.
    by left; rewrite /td (train_prepare L _ data seq e Ep).
  have [n0 [n1 [n2 [[N0 [N1 N2]] [SH [FR LV]]]]]] := prepare_nat data seq L t POS Ep. rewrite SH !Nat2Z.id.
  have [TOK [TRT TVE]] := train_nat L r0 r1 r2 data seq t n0 n1 n2 Ep SH.
  rewrite -/(natc) -/td in TOK TRT TVE.
  set inds := List.map natc (td_inds t) in FR.
  have -> : List.map (fun c : triple => (Z.to_nat (t_user c), Z.to_nat (t_item c), Z.to_nat (t_pos c))) (td_inds t) = inds by [].
  set vals := List.map of_val (td_vals t).
  have LV' : length vals = length inds by rewrite /vals /inds !List.map_length.
  have VV : [/\ (r0 <= r1 * r2)%N, (r1 <= r0 * r2)%N & (r2 <= r0 * r1)%N] <-> rank_valid r0 r1 r2.
    by rewrite /rank_valid; split=> [[/leP ? /leP ? /leP ?]|[/leP ? [/leP ? /leP ?]]].
  have FF : [/\ (r0 <= n0)%N, (r1 <= n1)%N, (r2 <= n2)%N & L = n2] <-> (Peano.le r0 n0 /\ Peano.le r1 n1 /\ Peano.le r2 n2 /\ n2 = L).
    by split=> [[/leP ? /leP ? /leP ? ?]|[/leP ? [/leP ? [/leP ? ?]]]].
  have := Hooi_final.ga_checks_main QR RAND INNER norm norm0 grew None force tt
            (introT leP N0) (introT leP N1) (introT leP N2) P0 P1 P2 LV' FR Sa NI.
  case Eg : (ga_satf _ _ _ _ _ _ _ _ _ _ _ _ _ _ _ _ _ _ _) => [[[fs core] []]|e]; cbn [bind].
  - move=> [V [F0 F1 F2 EL]]. subst n2.
    have HA : hooi_args n0 r0 n1 r1 L r2 inds vals by [].
    have := Hooi_run.ga_run_main QR RAND INNER norm norm0 grew n_iter None (init := None) force tt HA Sa I.
    rewrite Eg => -[k [F [G [S [_ _ [_ K SW _] [EF EG _ P]]]]]]. have K0 := K NI.
    have [S0 S1 S2 [O0 O1 O2]] := P K0.
    have := SW k.-1. rewrite prednK // => /(_ (leqnn k)) [wa [m0 [m1 [m2 [m2' [_ _ _ _ [WC SC _]]]]]]].
    have -> : core = Some (G k) by rewrite EG; case: (k) K0. cbn [bind].
    have [[aw last] E] := positions_ok Sa Si (introT leP N2) S2. rewrite E. cbn [bind].
    rewrite (TOK (proj1 VV V) (proj1 FF (And4 F0 F1 F2 erefl))).
    eexists; first by []. split=> //.
    + split=> //. rewrite /n_rows. cbn [nt_fs ti_urows ti_irows]. by rewrite !History_proofs.zrange_length (proj1 S0) (proj1 S1).
    + by rewrite /model_ok /n_rows; cbn [nt_fs nt_core]; rewrite (proj1 S0) (proj1 S1); split=> //; case: V.
  - case=> [H|[H|[[c [? [? [? [_ ? _]]]]]|[[-> NV]|[-> V NF]]]]] //; try by right; [left|right].
    + by right; left.
    + by right; right.
    + left. apply: TRT => H. by apply: NV; apply/VV.
    + left. apply: TVE; [by apply/VV|]. move=> H. by apply: NF; apply/FF.
Qed.
End Sim.
