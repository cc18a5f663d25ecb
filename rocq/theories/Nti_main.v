(** Exactness of a whole update with factors, without attention. *)
From Coq Require Import ZArith.
From Verif Require Import Prelude Prelude_proofs DataPrep_model DataPrep_spec History_model History_spec Psi_model Tirec_model Tirec_spec
  Tensor_model Tensor_spec Tensor_main Matrix_model Attention_model LinAlg_model Tucker_model Hooi_model Upd_model Nti_model Nti_book.
From Verif Require Tirec_proofs Tirec_main Tirec_assembly History_proofs.
Set Warnings "-notation-overridden".
From mathcomp Require Import all_ssreflect all_algebra.
From Verif Require Import LinAlg_spec LinAlg_bridge LinAlg_emb Tucker_spec Tucker_bridge Tucker_main Tucker_emb Tucker_integ Hooi_spec Hooi_bridge
  Upd_spec Upd_block Upd_new Exact_spec Exact_main Exact_final Nti_spec Nti_steps Nti_rank Nti_sim Nti_exact.
Set Implicit Arguments.
Unset Strict Implicit.
Unset Printing Implicit Defensive.
Import GRing.Theory.
Local Open Scope ring_scope.

(** The steps of a plan as they are logged. *)
Definition local (md : mode) (d : list entry) : list entry := match localize md d with Ok l => l | Err _ => nil end.
Definition logged (md : mode) (n0 n1 : nat) (d : list entry) : list ti_step :=
  match d with nil => nil | _ => [:: mkTiStep md (Z.of_nat n0) (Z.of_nat n1) d (local md d)] end.
Fixpoint steps_of (n0 n1 : nat) (l : list (mode * list entry)) : list ti_step :=
  match l with
  | nil => nil
  | (md, d) :: l => (logged md n0 n1 d
      ++ steps_of (n0 + length (Tirec_proofs.up_u md d)) (n1 + length (Tirec_proofs.up_i md d)) l)%list
  end.

Lemma local_ok md d : localize md d = Ok (local md d) /\ List.Forall2 (is_local md d) d (local md d).
Proof. have [loc [E F]] := localize_exact md d. by rewrite /local E. Qed.

Lemma logged_cons md n0 n1 d : d <> nil -> logged md n0 n1 d = [:: mkTiStep md (Z.of_nat n0) (Z.of_nat n1) d (local md d)].
Proof. by case: d. Qed.

Lemma steps_app n0 n1 l1 l2 : exists m0 m1, steps_of n0 n1 (l1 ++ l2)%list = (steps_of n0 n1 l1 ++ steps_of m0 m1 l2)%list.
Proof.
  elim: l1 n0 n1 => [|[md d] l1 IH] n0 n1; first by exists n0, n1.
  have [m0 [m1 E]] := IH (n0 + length (Tirec_proofs.up_u md d))%N (n1 + length (Tirec_proofs.up_i md d))%N.
  exists m0, m1. cbn [List.app steps_of]. by rewrite E List.app_assoc.
Qed.

Lemma steps_modes n0 n1 l s : List.In s (steps_of n0 n1 l) -> exists2 d, d <> nil & List.In (ts_mode s, d) l.
Proof.
  elim: l n0 n1 => [|[md d] l IH] n0 n1 //. cbn [steps_of] => H0. have [H|/IH [d' N H]] := List.in_app_or _ _ _ H0; last by exists d' => //; right.
  exists d; clear H0; first by case: d H. left. by case: d H => [|e d] //= [<-|].
Qed.
Lemma modes_steps n0 n1 l md d : List.In (md, d) l -> d <> nil -> exists2 s, List.In s (steps_of n0 n1 l) & ts_mode s = md.
Proof.
  elim: l n0 n1 => [|[md' d'] l IH] n0 n1 // [[-> ->]|H] NE; cbn [steps_of].
  - exists (mkTiStep md (Z.of_nat n0) (Z.of_nat n1) d (local md d)) => //. rewrite logged_cons //. by left.
  - have [s Hs Es] := IH (n0 + length (Tirec_proofs.up_u md' d'))%N (n1 + length (Tirec_proofs.up_i md' d'))%N H NE.
    exists s => //. by apply: List.in_or_app; right.
Qed.

Lemma run_log v L l : forall st st', plan_ok L (nusers st) (nitems st) l -> Nti_book.run (update_factors v L) st l = Ok st' ->
  ti_log st' = (ti_log st ++ steps_of (length (ti_urows st)) (length (ti_irows st)) l)%list.
Proof.
  elim: l => [|[md d] l IH] st st'; first by move=> _ [<-]; rewrite /= List.app_nil_r.
  cbn [plan_ok Nti_book.run steps_of]. case=> HR PO.
  case Ed : d => [|e0 d0].
    have -> : update_factors v L st [::] md = Ok st by [].
    have EU : length (Tirec_proofs.up_u md [::]) = 0%N by case: md {HR PO}.
    have EI : length (Tirec_proofs.up_i md [::]) = 0%N by case: md {HR PO EU}.
    cbn [bind]. rewrite EU ?EI !addn0 /=. apply: IH. by move: PO; rewrite Ed EU ?EI !Z.add_0_r.
  rewrite -Ed. have NE : d <> nil by rewrite Ed.
  have [EL FL] := local_ok md d.
  rewrite (update_factors_step v L st d md _ NE HR EL FL). case: ifP => // _. cbn [bind] => E.
  rewrite (IH _ _ _ E); cbn [ti_log ti_urows ti_irows].
  - rewrite -List.app_assoc !List.app_length. congr (_ ++ _)%list. rewrite /logged Ed. by [].
  - rewrite /nusers /nitems. cbn [ti_urows ti_irows]. by rewrite !List.app_length !Nat2Z.inj_add.
Qed.

Section Main.
Variable R : realFieldType.
Variable of_val : Z -> R.
Variables exceeds_eps is_one : R -> bool.
Hypothesis IS1 : forall y, is_one y = true -> y = 1.
Variables (cfg : nti_cfg) (L : nat) (a ainv : mat R) (r0 r1 r2 : nat).
Hypotheses (Sa : shape L L a) (Si : shape L L ainv).
Notation v := (nc_variant cfg).
Notation nstep rt := (nstep (0 : R) 1 +%R *%R (fun x y => x - y) of_val exceeds_eps is_one cfg L None rt).
Notation nti_update rt := (nti_update (0 : R) 1 +%R *%R (fun x y => x - y) of_val exceeds_eps is_one cfg L a ainv None rt).
Notation added := (added of_val).
Notation model_ok := (model_ok r0 r1 r2 L).

Variable rt : mode -> routines R.
Hypotheses (RT : forall md, rt_ok (rt md)) (LL : forall md, rt_lossless (rt md)).

Lemma step_rows (x x' : @nti_state R) md d : model_ok x ->
  (forall e, List.In e d -> Tirec_proofs.in_range md L (Z.of_nat (n_rows x 0)) (Z.of_nat (n_rows x 1)) e) ->
  nstep rt x d md = Ok x' ->
  [/\ model_ok x', n_rows x' 0 = (n_rows x 0 + length (Tirec_proofs.up_u md d))%N
    & n_rows x' 1 = (n_rows x 1 + length (Tirec_proofs.up_i md d))%N].
Proof.
  move=> MO HR E. have := by_mode_result of_val exceeds_eps IS1 cfg (RT md) (I : att_shape L None) MO HR.
  rewrite /Nti_book.nstep in E. by rewrite E => -[_ _ [H0 H1] H].
Qed.

Lemma plan_next (x x' : @nti_state R) md d l : model_ok x -> plan_ok L (Z.of_nat (n_rows x 0)) (Z.of_nat (n_rows x 1)) ((md, d) :: l) ->
  nstep rt x d md = Ok x' -> plan_ok L (Z.of_nat (n_rows x' 0)) (Z.of_nat (n_rows x' 1)) l.
Proof.
  move=> MO [HR PO] E. have [_ -> ->] := step_rows MO HR E. by rewrite !Nat2Z.inj_add.
Qed.

Lemma run_rows l : forall x x' : @nti_state R, model_ok x -> plan_ok L (Z.of_nat (n_rows x 0)) (Z.of_nat (n_rows x 1)) l ->
  Nti_book.run (nstep rt) x l = Ok x' -> [/\ model_ok x', (n_rows x 0 <= n_rows x' 0)%N & (n_rows x 1 <= n_rows x' 1)%N].
Proof.
  elim: l => [|[md d] l IH] x x' MO PO; first by case=> <-.
  cbn [Nti_book.run]. case E : (nstep rt x d md) => [x1|//]; cbn [bind] => E'.
  have [M1 N0 N1] := step_rows MO (proj1 PO) E. have [M' K0 K1] := IH _ _ M1 (plan_next MO PO E) E'.
  split=> //; [apply: leq_trans K0; rewrite N0|apply: leq_trans K1; rewrite N1]; exact: leq_addr.
Qed.

Lemma run_steps l l2 : forall x x' : @nti_state R, model_ok x -> plan_ok L (Z.of_nat (n_rows x 0)) (Z.of_nat (n_rows x 1)) (l ++ l2)%list ->
  Nti_book.run (nstep rt) x l = Ok x' ->
  steps_of (n_rows x 0) (n_rows x 1) (l ++ l2)%list
  = (steps_of (n_rows x 0) (n_rows x 1) l ++ steps_of (n_rows x' 0) (n_rows x' 1) l2)%list /\
  plan_ok L (Z.of_nat (n_rows x 0)) (Z.of_nat (n_rows x 1)) l /\
  plan_ok L (Z.of_nat (n_rows x' 0)) (Z.of_nat (n_rows x' 1)) l2.
Proof.
  elim: l => [|[md d] l IH] x x' MO PO; first by case=> <-.
  cbn [Nti_book.run]. case E : (nstep rt x d md) => [x1|//]; cbn [bind] => E'.
  have [M1 N0 N1] := step_rows MO (proj1 PO) E. have [H1 [H2 H3]] := IH _ _ M1 (plan_next MO PO E) E'.
  cbn [List.app steps_of plan_ok]. rewrite -!Nat2Z.inj_add -N0 -N1 H1 List.app_assoc. split=> //. split=> //. split; first exact: (proj1 PO). by rewrite N0 N1 in H2.
Qed.

(** Entries added by steps that are not [MOld] lie outside the model. *)
Lemma added_outside l : forall n0 n1 c, plan_ok L (Z.of_nat n0) (Z.of_nat n1) l ->
  (forall md d, List.In (md, d) l -> md <> MOld) -> inside n0 n1 L c -> dense (added v (steps_of n0 n1 l)) c = 0.
Proof.
  elim: l => [|[md d] l IH] n0 n1 c; first by rewrite /= dense_nil.
  move=> [HR PO] NO IN. cbn [steps_of]. rewrite added_app dense_cat.
  rewrite IH ?addr0; last first.
  - move/and3P: IN => [K0 K1 K2]. by apply/and3P; split=> //; [apply: leq_trans K0 _|apply: leq_trans K1 _]; exact: leq_addr.
  - by move=> md' d' H; apply: (NO md' d'); right.
  - by rewrite !Nat2Z.inj_add.
  rewrite /logged. case Ed : d => [|e0 d0]; first by rewrite /= dense_nil.
  rewrite -Ed added_cons /= List.app_nil_r /gain. case: ti_uses_values; last exact: dense_nil.
  have NM : md <> MOld := NO _ _ (or_introl erefl).
  have [EL FL] := local_ok md d.
  exact: (landed_early0 _ HR FL NM IN).
Qed.

Lemma value_eq (x x' : @nti_state R) : nt_fs x' = nt_fs x -> nt_core x' = nt_core x -> forall c, value L x' c = value L x c.
Proof. by move=> E1 E2 c; rewrite /value /n_rows E1 E2. Qed.

Lemma gain_nonempty md n0 n1 d : d <> nil -> ti_uses_values v md ->
  gain of_val v (mkTiStep md (Z.of_nat n0) (Z.of_nat n1) d (local md d)) <> nil.
Proof.
  move=> NE UV. rewrite /gain UV /landed. have [_ FL] := local_ok md d. cbn [ts_mode ts_local].
  by case: FL NE.
Qed.

(** What a step that is not [MOld] needs, from the tensor after several such steps. *)
Lemma step_conditions (x x1 : @nti_state R) md d n0' n1' (T : cell -> R) :
  let n0 := n_rows x 0 in let n1 := n_rows x 1 in let m0 := n_rows x1 0 in let m1 := n_rows x1 1 in
  let ext := extended of_val cfg L x d (local md d) md in
  model_ok x -> md <> MOld ->
  (forall e, List.In e d -> Tirec_proofs.in_range md L (Z.of_nat n0) (Z.of_nat n1) e) ->
  m0 = (n0 + length (Tirec_proofs.up_u md d))%N -> m1 = (n1 + length (Tirec_proofs.up_i md d))%N ->
  (m0 <= n0')%N -> (m1 <= n1')%N ->
  (forall c, inside m0 m1 L c -> T c = ext c) -> ranks_at_most r0 r1 r2 n0' n1' L T -> 
  (v = VTIRec \/ nc_random cfg = false) ->
  ranks_at_most r0 r1 r2 m0 m1 L ext /\
  (spans_positions r2 L m0 m1 x ext -> md = MNew -> lossless_step of_val cfg L r0 r1 r2 x x1 d (local md d) md) /\
  (ranks_are r0 r1 r2 n0 n1 L (value L x) ->
   lossless_step of_val cfg L r0 r1 r2 x x1 d (local md d) md /\ ranks_are r0 r1 r2 m0 m1 L ext).
Proof.
  move=> n0 n1 m0 m1 ext MO NM HR N0 N1 K0 K1 TE [Q0 Q1 Q2] VR.
  have [EL FL] := local_ok md d.
  have E0 : unf 0 1 m0 m1 L T = unf 0 1 m0 m1 L ext.
    by apply: unf_eq => i y z Hi Hy Hz; apply: TE; rewrite (place_in L _ _ _ _ _ mode_0) Hi Hy.
  have E1 : unf 1 0 m1 m0 L T = unf 1 0 m1 m0 L ext.
    by apply: unf_eq => i y z Hi Hy Hz; apply: TE; rewrite (place_in L _ _ _ _ _ mode_1) Hi Hy.
  have E2 : unf 2 0 L m0 m1 T = unf 2 0 L m0 m1 ext.
    by apply: unf_eq => i y z Hi Hy Hz; apply: TE; rewrite (place_in L _ _ _ _ _ mode_2) Hi Hy.
  have A0 : (\rank (unf 0 1 m0 m1 L ext) <= r0)%N by rewrite -E0; apply: leq_trans Q0; exact: rank_unf.
  have A1 : (\rank (unf 1 0 m1 m0 L ext) <= r1)%N by rewrite -E1; apply: leq_trans Q1; exact: rank_unf.
  have A2 : (\rank (unf 2 0 L m0 m1 ext) <= r2)%N by rewrite -E2; apply: leq_trans Q2; exact: rank_unf.
  have LS : spans_positions r2 L m0 m1 x ext -> 
    (md = MNewUsers -> proj n1 r1 (factor (nt_fs x) 1) *m unf 1 0 n1 m0 L ext = unf 1 0 n1 m0 L ext) ->
    (md = MNewItems -> proj n0 r0 (factor (nt_fs x) 0) *m unf 0 1 n0 m1 L ext = unf 0 1 n0 m1 L ext) ->
    lossless_step of_val cfg L r0 r1 r2 x x1 d (local md d) md.
    move=> SW S1 S0. rewrite /lossless_step -/n0 -/n1 -/m0 -/m1. clear LL RT.
    case Em : md NM S1 S0 VR => // _ S1 S0 VR; subst md.
    - by split.
    - case Ev : v; [by split=> //; apply: S1|by case: VR => // H; rewrite Ev in H..].
    - case Ev : v; [by split=> //; apply: S0|by case: VR => // H; rewrite Ev in H..].
  split; first by split.
  split.
    move=> SW Em. apply: LS => //; by rewrite Em.
  move=> [B0 B1 B2].
  have VE : forall c, inside n0 n1 L c -> value L x c = ext c.
    move=> c IN. rewrite /ext /extended /gain. case: ti_uses_values; last by rewrite dense_nil addr0.
    by rewrite (landed_early of_val HR FL NM IN) addr0.
  have F0 : unf 0 1 n0 n1 L (value L x) = unf 0 1 n0 n1 L ext.
    by apply: unf_eq => i y z Hi Hy Hz; apply: VE; rewrite (place_in L _ _ _ _ _ mode_0) Hi Hy.
  have F1 : unf 1 0 n1 n0 L (value L x) = unf 1 0 n1 n0 L ext.
    by apply: unf_eq => i y z Hi Hy Hz; apply: VE; rewrite (place_in L _ _ _ _ _ mode_1) Hi Hy.
  have F2 : unf 2 0 L n0 n1 (value L x) = unf 2 0 L n0 n1 ext.
    by apply: unf_eq => i y z Hi Hy Hz; apply: VE; rewrite (place_in L _ _ _ _ _ mode_2) Hi Hy.
  have [FA0 FA1] := tucker_at MO. have [[H0 H1 H2] [O0 O1 O2] W S _] := MO.
  have FA2 : factors_at 2 0 1 L r2 n0 r0 n1 r1 (nt_fs x) (nt_core x) by split=> //; rewrite S.
  have G0 : unf 0 1 n0 n1 L (value L x) = _ := unf_value L x mode_0. rewrite (rep3_unf mode_0 FA0) -mulmxA in G0.
  have G1 : unf 1 0 n1 n0 L (value L x) = _ := unf_value L x mode_1. rewrite (rep3_unf mode_1 FA1) -mulmxA in G1.
  have G2 : unf 2 0 L n0 n1 (value L x) = _ := unf_value L x mode_2. rewrite (rep3_unf mode_2 FA2) -mulmxA in G2.
  have D0 : (n0 <= m0)%N by rewrite N0 leq_addr. have D1 : (n1 <= m1)%N by rewrite N1 leq_addr.
  split.
  - apply: LS.
    + have [Y EY] := unf_cols 2 0 L ext D0 D1. rewrite -F2 in EY. exact: (full_span O2 G2 EY B2 A2).
    + move=> Em. have D : m1 = n1 by rewrite N1 Em /= addn0.
      have [Y EY] := unf_cols 1 0 n1 ext D0 (leqnn L). rewrite -F1 in EY. rewrite D in A1. exact: (full_span O1 G1 EY B1 A1).
    + move=> Em. have D : m0 = n0 by rewrite N0 Em /= addn0.
      have [Y EY] := unf_cols 0 1 n0 ext D1 (leqnn L). rewrite -F0 in EY. rewrite D in A0. exact: (full_span O0 G0 EY B0 A0).
  - split; apply/eqP; rewrite eqn_leq.
    + rewrite A0 -{1}B0 F0. exact: rank_unf.
    + rewrite A1 -{1}B1 F1. exact: rank_unf.
    + rewrite A2 -{1}B2 F2. exact: rank_unf.
Qed.

Lemma early_exact l : forall x x' : @nti_state R, model_ok x -> plan_ok L (Z.of_nat (n_rows x 0)) (Z.of_nat (n_rows x 1)) l ->
  (forall md d, List.In (md, d) l -> md <> MOld) -> Nti_book.run (nstep rt) x l = Ok x' ->
  let ss := steps_of (n_rows x 0) (n_rows x 1) l in
  let T c := value L x c + dense (added v ss) c in
  (v = VTIRec \/ nc_random cfg = false) ->
  (added v ss <> nil -> ranks_at_most r0 r1 r2 (n_rows x' 0) (n_rows x' 1) L T /\
     (ranks_are r0 r1 r2 (n_rows x 0) (n_rows x 1) L (value L x) \/
      [/\ (forall n0 n1, added v (steps_of n0 n1 (behead l)) = nil), (exists d, List.head l = Some (MNew, d))
        & spans_positions r2 L (n_rows x' 0) (n_rows x' 1) x T])) ->
  forall c, value L x' c = T c.
Proof.
  elim: l => [|[md d] l IH] x x' MO PO NO; first by case=> <- ss T _ _ c; rewrite /T /ss /= dense_nil addr0.
  move=> E0 ss T VR COND. move: E0. cbn [Nti_book.run]. case E : (nstep rt x d md) => [x1|//]. cbn [bind] => E'.
  have HR := proj1 PO. have PO1 := plan_next MO PO E. have [M1 N0 N1] := step_rows MO HR E.
  have [_ K0 K1] := run_rows M1 PO1 E'. have NM : md <> MOld := NO _ _ (or_introl erefl).
  have NO1 : forall md' d', List.In (md', d') l -> md' <> MOld by move=> md' d' H; apply: (NO md' d'); right.
  set s1 := steps_of (n_rows x1 0) (n_rows x1 1) l.
  have Ess : ss = (logged md (n_rows x 0) (n_rows x 1) d ++ s1)%list by rewrite /ss /s1 N0 N1.
  case Ed : d => [|e0 d0].
    have Ex : x1 = x by move: E; rewrite Ed => -[].
    have Es : ss = s1 by rewrite Ess Ed.
    rewrite /T Es. subst x1. apply: (IH x x' MO PO1 NO1 E' VR). move=> NN.
    rewrite -/s1 -Es in NN *. have [RK [RA|[NT _ _]]] := COND NN; first by split=> //; left.
    exfalso. apply: NN. rewrite Es. exact: NT.
  have NE : d <> nil by rewrite Ed. clear e0 d0 Ed.
  have [EL FL] := local_ok md d.
  set s0 := mkTiStep md (Z.of_nat (n_rows x 0)) (Z.of_nat (n_rows x 1)) d (local md d).
  have Es : ss = s0 :: s1 by rewrite Ess logged_cons.
  have Ea : added v ss = (gain of_val v s0 ++ added v s1)%list by rewrite Es added_cons.
  set ext := extended of_val cfg L x d (local md d) md.
  have TE c : T c = ext c + dense (added v s1) c by rewrite /T Ea dense_cat addrA.
  have TI c : inside (n_rows x1 0) (n_rows x1 1) L c -> T c = ext c.
    by move=> IN; rewrite TE /s1 (added_outside PO1 NO1 IN) addr0.
  have STEP : lossless_step of_val cfg L r0 r1 r2 x x1 d (local md d) md -> forall c, value L x1 c = ext c.
    by move=> LS; exact: (exact_all IS1 (RT md) (LL md) MO NE HR EL FL N0 N1 E LS).
  case EA : (added v ss) => [|p ps].
    have Eg : gain of_val v s0 = nil by move: Ea; rewrite EA; case: (gain _ _ _).
    have E1 : added v s1 = nil by move: Ea; rewrite EA Eg.
    have UV : ti_uses_values v md = false.
      apply/negbTE/negP => UV. case: (gain_nonempty NE UV Eg).
    have LS : lossless_step of_val cfg L r0 r1 r2 x x1 d (local md d) md.
      rewrite /lossless_step. move: UV VR NM. by case: (md) => //; case: v => // _ [].
    move=> c. rewrite (IH x1 x' M1 PO1 NO1 E' VR); last by rewrite -/s1 E1.
    by rewrite -/s1 (STEP LS) TE.
  have NN : added v ss <> nil by rewrite EA. clear p ps EA.
  have [RK ALT] := COND NN.
  have [RM [S1 S2]] := step_conditions MO NM HR N0 N1 K0 K1 TI RK VR.
  case: ALT => [RA|[NT [d' Eh] SP]].
  - have [LS RA1] := S2 RA. have SE := STEP LS. move=> c.
    rewrite (IH x1 x' M1 PO1 NO1 E' VR); first by rewrite -/s1 SE TE.
    rewrite -/s1 => _. split; last left.
    + case: RK => Q0 Q1 Q2.
      have TT c' : value L x1 c' + dense (added v s1) c' = T c' by rewrite SE TE.
      by split; rewrite (unf_eq (t' := T)) // => *; exact: TT.
    + case: RA1 => Q0 Q1 Q2. by split; rewrite (unf_eq (t' := ext)) // => *; exact: SE.
  - case: Eh => Em _. have E1 : added v s1 = nil := NT _ _.
    have Ee c : T c = ext c by rewrite TE E1 dense_nil addr0.
    have LS : lossless_step of_val cfg L r0 r1 r2 x x1 d (local md d) md.
      apply: S1 => //. rewrite /spans_positions in SP *.
      rewrite -(unf_eq (t := T)) => [|*]; last exact: Ee.
      have [Y EY] := unf_cols 2 0 L T K0 K1. by rewrite EY mulmxA SP.
    move=> c. rewrite (IH x1 x' M1 PO1 NO1 E' VR); last by rewrite -/s1 E1.
    by rewrite -/s1 (STEP LS) TE.
Qed.

Lemma added_filter (l : list ti_step) : (forall s, List.In s l -> ts_mode s <> MOld) -> [seq s <- l | ~~ is_old (ts_mode s)] = l.
Proof.
  elim: l => [|s l IH] H //=. rewrite IH; last by move=> s' Hs'; apply: H; right.
  by have := H s (or_introl erefl); case: (ts_mode s).
Qed.

Lemma add_all_value (x x' : @nti_state R) n m : v <> VTIRec -> nc_random cfg = false -> model_ok x ->
  add_all (0 : R) 1 +%R *%R (fun x y => x - y) exceeds_eps cfg rt x n m = Ok x' -> forall c, value L x' c = value L x c.
Proof.
  move=> NV NR MO. rewrite /add_all.
  case E1 : (add_vectors _ _ _ _ _ _ _ _ _ _ _ _) => [[fs1 core1]|//]; cbn [bind].
  have := add_vectors_ok exceeds_eps (cfg := cfg) (em := EUsers) (da := zeros2 0 n 0) (RT MNewUsers) MO erefl (fun E => False_ind _ (NV E)).
  rewrite E1 => -[_]. rewrite /em_u /em_i addn0 => T1.
  have Z1 := zero_rows_value MO NV NR E1. set x1 := set_factors _ _ _ in Z1.
  have M1 : model_ok x1.
    have [K0 K1] := tucker_rows T1. have J0 : n_rows x1 0 = _ := K0. have J1 : n_rows x1 1 = _ := K1.
    by rewrite /Nti_spec.model_ok J0 J1.
  case E2 : (add_vectors _ _ _ _ _ _ _ _ _ _ _ _) => [[fs2 core2]|//]; cbn [bind] => -[<-] c.
  rewrite -(Z1 c) -(zero_rows_value M1 NV NR E2 c). exact: value_eq.
Qed.


(** The plan is a sequence of steps for new rows, then one step on the old rows. *)
Lemma plan_split nu ni D : exists l0 d, plan v nu ni D = (l0 ++ [:: (MOld, d)])%list /\
  (forall md e, List.In (md, e) l0 -> md <> MOld) /\
  (v = VTIRecAInt -> l0 = nil) /\
  (l0 <> nil -> (exists e, List.head l0 = Some (MNew, e)) /\ forall md e, List.In (md, e) (behead l0) -> ~~ is_new md).
Proof.
  rewrite /plan. case: v.
  - exists [:: (MNew, q_new nu ni D); (MNewUsers, q_new_users nu ni D); (MNewItems, q_new_items nu ni D)], (q_old nu ni D).
    split=> //. split; first by move=> md e [[<-]|[[<-]|[[<-]|]]].
    split=> // _. split; first by eexists. by move=> md e [[<-]|[[<-]|]].
  - exists [:: (MNew, q_new nu ni D); (MNewUsers, q_new_users nu ni D); (MNewItems, q_new_items nu ni D)], D.
    split=> //. split; first by move=> md e [[<-]|[[<-]|[[<-]|]]].
    split=> // _. split; first by eexists. by move=> md e [[<-]|[[<-]|]].
  - exists nil, D. by [].
Qed.

Lemma added_none l : (forall s, List.In s l -> ti_uses_values v (ts_mode s) = false) -> added v l = nil.
Proof.
  elim: l => [|s l IH] H //. rewrite added_cons /gain (H s (or_introl erefl)) /=.
  apply: IH => s' Hs'. by apply: H; right.
Qed.

Theorem update_exact x st data s x' st' l :
  ti_wf L st -> follows x st -> model_ok x ->
  nti_update rt x data s = Ok x' -> ti_update v L st data s = Ok st' -> ti_log st' = (ti_log st ++ l)%list ->
  lossless_update of_val cfg r0 r1 r2 L x x' l ->
  forall c, value L x' c = value L x c + dense (added v l) c.
Proof.
  move=> W F MO EN ET EL [C1 C2 C3 C4]. have [F1 F2 F3 [F4 F5]] := F.
  have L1 : (0 < L)%N by case: MO => _ _ _ _ [_ _ _ [_ _ P2] [_ _ N2]]; exact: leq_trans P2 N2.
  have NE : data <> nil.
    move=> Ed. move: ET. by rewrite Ed /ti_update /preprocess_raw_input_data; case: (s).
  have [chunk0 [chunk [ms' [ku [ki P]]]]] :=
    Tirec_proofs.preprocess_spec L (ti_maps st) data s (proj1 W) (proj1 (proj2 W)) (elimT leP L1) NE.
  move: EN ET.
  rewrite (ti_update_plan cfg L st data s W _ _ _ _ _ P).
  rewrite (nti_update_plan _ _ _ _ _ _ _ _ cfg L a ainv None rt st data s W _ _ _ _ _ P x F1 F3).
  have PG := plan_good cfg L st data s W _ _ _ _ _ P.
  case ED : (snd (get_train_tensor L (ti_seq st) (List.map triple_of chunk))) => [|e0 D0] //.
  rewrite ED in PG. set D := e0 :: D0 in PG *.
  have ST : match nti_start 0 1 +%R *%R (fun x y => x - y) exceeds_eps cfg L rt st chunk ms' ku ki x with
            | Ok y => [/\ follows y (ti_start cfg L st chunk ms' ku ki), model_ok y, forall c, value L y c = value L x c
                & v <> VTIRecAInt -> n_rows y 0 = n_rows x 0 /\ n_rows y 1 = n_rows x 1 /\ nt_fs y = nt_fs x]
            | Err e => True end.
    rewrite /nti_start /ti_start. case Ev : v; try by split=> //; split.
    have MO' : model_ok (mkNti ms' (nt_history x) (fst (get_train_tensor L (ti_seq st) (List.map triple_of chunk)))
                 (nt_fs x) (nt_core x) (nt_aw x) (nt_last x)) := MO.
    have NV : v <> VTIRec by rewrite Ev.
    have NR : nc_random cfg = false by case: C4 => // H; rewrite Ev in H.
    have := add_all_ok exceeds_eps RT ku ki NV MO'.
    case EA : (add_all _ _ _ _ _ _ _ _ _ _ _) => [y|e] // [OF N0 N1 MY]. split=> //; last first.
      exact: (add_all_value NV NR MO' EA).
    rewrite OF in N0 N1 *. split=> //.
    cbn [ti_urows ti_irows]. rewrite !List.app_length !Tirec_proofs.seqZ_length.
    by rewrite N0 N1 -F4 -F5.
  case: nti_start ST => [y|e] //; cbn [bind]. move=> [Fy My Vy Ny].
  have [l0 [d [EP [NO [NI0 HD]]]]] := plan_split (nusers st) (nitems st) D. rewrite EP in PG *.
  have := run_sim of_val exceeds_eps IS1 cfg (I : att_shape L None) RT Fy My PG.
  case ER : (Nti_book.run (nstep rt) y _) => [x1|e] //; cbn [bind]. move=> [st1 E1 [F1' M1]]. rewrite E1. cbn [bind].
  move=> EF [Est].
  have EV c : value L x' c = value L x1 c.
    move: EF. rewrite /nti_finish. case: position_embeddings => [[aw last]|//]. cbn [bind] => -[<-]. exact: value_eq.
  have ER0 : n_rows x' 0 = n_rows x1 0 /\ n_rows x' 1 = n_rows x1 1.
    move: EF. rewrite /nti_finish. case: position_embeddings => [[aw last]|//]. cbn [bind] => -[<-]. by [].
  move: ER E1. rewrite run_app. case Ey : (Nti_book.run (nstep rt) y l0) => [y1|//]. cbn [bind] => ER E1.
  have [_ _ _ [Fy4 Fy5]] := Fy. rewrite /nusers /nitems -Fy4 -Fy5 in PG.
  have [My1 _ _] := run_rows My (proj1 (proj2 (run_steps My PG Ey))) Ey.
  have [SS [PO0 PO1]] := run_steps My PG Ey.
  have Ell : l = steps_of (n_rows y 0) (n_rows y 1) (l0 ++ [:: (MOld, d)])%list.
    rewrite /nusers /nitems Fy4 Fy5 in PG.
    have := run_log PG E1. rewrite -Est /= in EL. rewrite EL.
    have -> : ti_log (ti_start cfg L st chunk ms' ku ki) = ti_log st by rewrite /ti_start; case: v.
    rewrite Fy4 Fy5. exact: List.app_inv_head.
  set ss0 := steps_of (n_rows y 0) (n_rows y 1) l0 in SS.
  have NS : forall s, List.In s ss0 -> ts_mode s <> MOld.
    by move=> s' Hs'; have [d' _ Hd'] := steps_modes Hs'; exact: (NO _ _ Hd').
  have Eold : steps_of (n_rows y1 0) (n_rows y1 1) [:: (MOld, d)] = logged MOld (n_rows y1 0) (n_rows y1 1) d.
    by rewrite /= List.app_nil_r.
  rewrite Eold -Ell in SS.
  have EE : added_early of_val v l = added v ss0.
    rewrite /added_early SS. rewrite (_ : [seq _ <- _ | _] = ss0) //. change (ss0 ++ ?z)%list with (ss0 ++ z).
    rewrite filter_cat (added_filter NS). by case: (d) => [|? ?]; rewrite /= ?cats0.
  have ROWS : n_rows x1 0 = n_rows y1 0 /\ n_rows x1 1 = n_rows y1 1.
    move: ER. cbn [Nti_book.run]. case Es : (nstep rt y1 d MOld) => [x2|//]. cbn [bind] => -[<-].
    have [_ -> ->] := step_rows My1 (proj1 PO1) Es. by rewrite /= !addn0.
  case: ER0 => X0 X1. case: ROWS => Y0 Y1. rewrite X0 X1 Y0 Y1 EE in C1 C2.
  have EARLY : forall c, value L y1 c = value L x c + dense (added v ss0) c.
    have H := early_exact My PO0 NO Ey C4. move=> c. rewrite H ?Vy // -/ss0 => NN.
    have NL : l0 <> nil by move=> H0; apply: NN; rewrite /ss0 H0.
    have NV : v <> VTIRecAInt by move=> /NI0.
    have [A0 [A1 A2]] := Ny NV. have [[Q0 Q1 Q2] ALT] := C1 NN.
    split; first by split; rewrite (unf_eq (t' := fun c => value L x c + dense (added v ss0) c)) // => *; rewrite Vy.
    case: ALT => [[B0 B1 B2]|[AN SP]]; [left|right].
    + rewrite A0 A1. by split; rewrite (unf_eq (t' := value L x)) // => *; rewrite Vy.
    + have [HD1 HD2] := HD NL. split=> //; last first.
        by rewrite /spans_positions A2 in SP *; rewrite (unf_eq (t' := fun c => value L x c + dense (added v ss0) c)) // => *; rewrite Vy.
      move=> m0 m1. apply: added_none => s' Hs'. apply/negbTE/negP => UV.
      have [d' Nd' Hd'] := steps_modes Hs'. have Nn := HD2 _ _ Hd'.
      have IN : List.In (ts_mode s', d') l0 by case: (l0) Hd' => // ? ? /= ?; right.
      have [s2 Hs2 Em] := modes_steps (n_rows y 0) (n_rows y 1) IN Nd'.
      have In2 : List.In s2 l by rewrite SS; apply: List.in_or_app; left.
      have := AN s2 In2. rewrite Em UV => /(_ isT). rewrite (negbTE Nn) /=. have := NO _ _ IN. by case: (ts_mode s').
  move=> c. rewrite EV. rewrite {}SS in C2 C3 *. rewrite added_app dense_cat addrA -EARLY.
  move: ER. cbn [Nti_book.run]. case Es : (nstep rt y1 d MOld) => [x2|//]. cbn [bind] => -[<-].
  case Ed : d => [|ed dd].
    by move: Es; rewrite Ed => -[<-]; rewrite /= dense_nil addr0.
  have NEd : d <> nil by rewrite Ed. rewrite -Ed. clear ed dd Ed.
  rewrite logged_cons // in C2 C3 *. rewrite added_cons List.app_nil_r.
  have [_ R0 R1] := step_rows My1 (proj1 PO1) Es.
  have [ELo FLo] := local_ok MOld d.
  apply: (exact_all IS1 (RT MOld) (LL MOld) My1 NEd (proj1 PO1) ELo FLo R0 R1 Es).
  split; last first.
    set s9 := mkTiStep _ _ _ _ _ in C3. have IN : List.In s9 (ss0 ++ [:: s9])%list by apply: List.in_or_app; right; left.
    exact: (C3 s9 IN isT).
  case: C2 => Q0 Q1 Q2.
  have EX : forall c, extended of_val cfg L y1 d (local MOld d) MOld c
    = value L x c + dense (added v (ss0 ++ [:: mkTiStep MOld (Z.of_nat (n_rows y1 0)) (Z.of_nat (n_rows y1 1)) d (local MOld d)])%list) c.
    move=> c'. by rewrite added_app dense_cat addrA -EARLY added_cons List.app_nil_r.
  have EX1 n m p q k : unf n m p q k (extended of_val cfg L y1 d (local MOld d) MOld)
    = unf n m p q k (fun c => value L x c + dense (added v (ss0 ++ [:: mkTiStep MOld (Z.of_nat (n_rows y1 0)) (Z.of_nat (n_rows y1 1)) d (local MOld d)])%list) c).
    by apply: unf_eq => *; rewrite EX.
  have EX2 n m p q k : unf n m p q k (value L y1) = unf n m p q k (fun c => value L x c + dense (added v ss0) c).
    by apply: unf_eq => *; rewrite EARLY.
  by split; rewrite !EX1 !EX2.
Qed.
End Main.
