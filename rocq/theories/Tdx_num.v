(** Whole experiments of TDRec. *)
From Coq Require Import ZArith QArith.
From Coq Require List.
From Verif Require Import Prelude DataPrep_model DataPrep_spec History_model History_spec Recommend_model Recommend_spec Psi_model Tirec_model Tirec_spec
  Tensor_model Matrix_model Attention_model Attention_spec LinAlg_model Tucker_model Hooi_model Upd_model Nti_model Dynamic_model Dynamic_spec Full_spec Seqx_spec Seqx_model Tdx_spec Tdx_model.
From Verif Require Retrain_model DataPrep_main Full_rec Full_gen Full_psi DataPrep_proofs History_proofs History_main Tirec_stream Nti_train Nti_scores Attention_main Seqx_book Seqx_upd Seqx_inv Tdx_book Tdx_rec.
Set Warnings "-notation-overridden".
From mathcomp Require Import all_ssreflect all_algebra.
From Coq Require Import Lia.
From Verif Require Import LinAlg_spec Tucker_spec Hooi_spec Upd_spec Exact_spec Num_spec Nti_spec.
From Verif Require Nti_sim LinAlg_bridge Seqx_num.
Set Implicit Arguments.
Unset Strict Implicit.
Unset Printing Implicit Defensive.
Import Order.TTheory GRing.Theory Num.Theory.
Local Open Scope ring_scope.

Definition with_seq {A} (x : @nti_state A) (q : seq_history) : @nti_state A :=
  mkNti (nt_maps x) (nt_history x) q (nt_fs x) (nt_core x) (nt_aw x) (nt_last x).

Section Td.
Variable R : realFieldType.
Variable of_val : Z -> R.
Variables (L r0 r1 r2 : nat) (a ainv : mat R).
Hypotheses (L2 : Peano.le 2 L) (P0 : (0 < r0)%N) (P1 : (0 < r1)%N) (P2 : (0 < r2)%N).
Hypotheses (Sa : shape L L a) (Si : shape L L ainv).
Variables (qr : mat R -> res (mat R * mat R)) (rand : nat -> nat -> nat -> mat R) (rsvd : nat -> mat R -> nat -> res (mat R * list R * mat R)).
Hypotheses (QR : qr_ok qr) (RAND : forall m, randn_ok (rand m)) (INNER : inner_ok rsvd).
Variables (N : Type) (tnorm : ten R -> N) (norm0 : N) (grew : N -> N -> bool) (n_iter : nat) (force : bool).
Hypothesis NI : (0 < n_iter)%N.
Variable argpart : nat -> list R -> nat -> list nat.
Let le (x y : R) : bool := x <= y.
Hypothesis AP : argpartition_contract le argpart.
Variable k : nat.
Hypothesis k1 : Peano.le 1 k.
Variable keep : list DataPrep_model.row -> list DataPrep_model.row.
Hypothesis KEEP : crops L true keep.
Notation sub := (fun x y : R => x - y).
Notation train := (seq_train 0 +%R *%R of_val L (r0, r1, r2) a ainv qr rand rsvd tnorm norm0 grew n_iter force).
Notation ntrain := (nti_train 0 +%R *%R of_val qr rand rsvd tnorm norm0 grew L (r0, r1, r2) a ainv n_iter force).
Notation nti_rec := (nti_rec 0 +%R *%R).
Notation recommend := (nti_recommend 0 +%R *%R argpart k).
Notation fresh_good := (Seqx_num.good L r0 r1 r2 a ainv).
Notation scores := (nti_scores 0 +%R *%R).

Definition excuse (e : exn) : Prop := (exists x, qr x = Err e) \/ (exists t x r, rsvd t x r = Err e).

Lemma ntrain_seq data q : match ntrain data nil with
  | Ok x => exists td, [/\ tdrec_prepare data nil L = Ok td, nt_maps x = td_mappings td, nt_seq x = td_seq td
      & ntrain data q = Ok (with_seq x (update_user_seq_history (td_inds td) q L))]
  | Err e => ntrain data q = Err e
  end.
Proof.
  rewrite /nti_train. have := Tdx_book.prepare_seq data q L. case: tdrec_prepare => [td|e] -> //. cbn [bind td_shape td_inds td_vals td_mappings td_history td_seq].
  case: (td_shape td) => [[s0 s1] s2]. case: ga_satf => [[[fs core] l]|e] //. cbn [bind]. case: core => [c|] //. cbn [bind].
  case: position_embeddings => [[aw la]|e] //. cbn [bind]. exists td. by split.
Qed.

(** A user's history is their own as far as scores look. *)
Definition own (q q0 : seq_history) (u : Z) : Prop := exists d d0, dget u q = Some d /\ dget u q0 = Some d0 /\
  lastn (L - 1) (List.filter (fun x => negb (Z.eqb x PAD_VALUE)) (dq_items d)) = lastn (L - 1) (List.filter (fun x => negb (Z.eqb x PAD_VALUE)) (dq_items d0)).
Definition filled (q : seq_history) (u : Z) : Prop := exists d j, dget u q = Some d /\ List.In j (dq_items d) /\ j <> PAD_VALUE.
Definition trained (x x0 : @nti_state R) (P : list irow) : Prop :=
  [/\ fresh_good x0 P, x = with_seq x0 (nt_seq x), Tdx_book.hist_len L (nt_seq x),
      forall u j, f_of (m_users (nt_maps x0)) u = Some j -> filled (nt_seq x) j
    & forall u j, f_of (m_users (nt_maps x0)) u = Some j -> Peano.le (L - 1) (length (rows_of u P)) -> own (nt_seq x) (nt_seq x0) j].

Lemma fresh_alike x P Q : Tdx_book.alike P Q -> fresh_good x P -> fresh_good x Q.
Proof.
  move=> H [st [I F M PE T2]]. exists st. split=> //; first exact: (Tdx_book.alike_sinv _ _ _ _ H I).
  rewrite /catalogue. move: T2. rewrite /catalogue -!/(ndistinct _). by rewrite (Tdx_book.alike_count r_item _ _ H).
Qed.
Lemma trained_alike x x0 P Q : Tdx_book.alike P Q -> trained x x0 P -> trained x x0 Q.
Proof.
  move=> H [G E HL F O]. split=> //; first exact: (fresh_alike H).
  move=> u j Hu Hl. apply: (O u j Hu). by rewrite H.
Qed.

Lemma train_outcome table data x : get_df_with_cropped_pos_column table L true = Ok data -> Z.le 2 (n_items_in (keep table)) ->
  Tdx_book.hist_len L (nt_seq x) ->
  match train x data with
  | Ok x' => seq_trainable r0 r1 r2 L (keep table) /\ (exists x0, ntrain data nil = Ok x0 /\ trained x' x0 (keep table)) /\
      (forall ni, Tdx_book.hist_in ni (nt_seq x) -> Z.le ni (n_items_in (keep table)) -> Tdx_book.hist_in (n_items_in (keep table)) (nt_seq x'))
  | Err e => seq_trainable r0 r1 r2 L (keep table) -> excuse e
  end.
Proof.
  move=> CROP TWO HL. rewrite /seq_train.
  have TI := Seqx_inv.train_iff L true keep table data r0 r1 r2 KEEP CROP.
  have L1 : Peano.le 1 L by lia.
  have := Nti_sim.train_sim of_val Sa Si tnorm norm0 grew force nil QR RAND INNER P0 P1 P2 NI (Nti_train.cropped_positions _ _ _ _ CROP).
  have := ntrain_seq data (nt_seq x). case E0: (ntrain data nil) => [x0|e].
  - move=> [td [EP EM ES ->]] [st E [F M PE]]. have I := Seqx_inv.sinv_train _ _ _ _ _ _ _ KEEP CROP E.
    have [BIN [ES0 BI]] : (forall t, List.In t (td_inds td) -> Z.le 0 (t_item t) /\ Z.lt (t_item t) (n_items_in (keep table))) /\
      td_seq td = update_user_seq_history (td_inds td) nil L /\ bij (m_items (td_mappings td)) Z0.
    { have [ini [_ [F2 [_ [BI [EI [_ [_ EH]]]]]]]] := History_main.prepare_initial _ _ _ _ EP. split=> // t Ht.
      have [_ CI] := Seqx_book.sinv_counts _ _ _ I.
      have [_ [_ [_ [NE _]]]] := Seqx_book.sinv_wf _ _ _ I. rewrite NE in CI.
      have [FM _ _ _] := F. have := EM. rewrite FM => EM'. rewrite EM' in CI.
      rewrite EI in Ht. have Ht' := Permutation.Permutation_in _ (Permutation.Permutation_sym (Prelude_proofs.sort_stable_perm user_pos_leb _)) Ht.
      have [p [Ep Hp]] := proj1 (List.in_map_iff _ _ _) Ht'.
      have [p0 [_ [[_ [_ [Hf _]]] _]]] := Recommend_main.Forall2_In_r _ _ _ _ F2 Hp.
      have Et : t_item t = r_item (p_row p) by rewrite -Ep.
      rewrite Et -CI. exact: (DataPrep_main.bij_f_nonneg _ _ _ BI Hf). }
    split; first by apply/TI; exists st. split; last first.
      move=> ni HI LE. exact: (Tdx_book.update_in L ni _ _ _ HL HI LE BIN).
    exists x0. split=> //. rewrite /trained. cbn [nt_seq with_seq].
    have G : fresh_good x0 (keep table).
    { exists st. split=> //. move: TWO. rewrite /n_items_in /catalogue /ndistinct. lia. }
    have OWN : forall u j, f_of (m_users (nt_maps x0)) u = Some j -> exists js d old, [/\ List.Forall2 (fun i j => f_of (m_items (td_mappings td)) i = Some j) (List.map r_item (rows_of u (keep table))) js,
       dget j (update_user_seq_history (td_inds td) (nt_seq x) L) = Some d, dq_items d = lastn L (old ++ js), Peano.lt 0 (length js) & History_spec.items_of j (td_inds td) = js].
    { move=> u j. rewrite EM => Hu. have [js [Fi [Ni Ei]]] := Seqx_inv.train_items _ _ _ _ _ _ _ _ _ KEEP CROP EP Hu.
      have Eis : History_spec.items_of j (td_inds td) = js.
      { rewrite /History_spec.items_of Ei List.map_map. exact: Prelude_proofs.enumerate_snd. }
      have [d [old [H1 H2]]] := Tdx_book.update_own L _ _ _ _ HL Eis Ni. exists js, d, old. by split. }
    have NP : forall js l, List.Forall2 (fun i j => f_of (m_items (td_mappings td)) i = Some j) l js -> Seqx_book.nopad js.
    { move=> js l Fi j Hj. have [i [_ Hi]] := Recommend_main.Forall2_In_r _ _ _ _ Fi Hj. have := DataPrep_main.bij_f_nonneg _ _ _ BI Hi.
      rewrite /PAD_VALUE. lia. }
    split=> //; first exact: Tdx_book.update_len.
    + move=> u j Hu. have [js [d [old [Fi Hd Ed Nl _]]]] := OWN u j Hu.
      have [i [Hi Npd]] := Tdx_book.latest_some L old js d (NP _ _ Fi) L1 Nl Ed. by exists d, i.
    + move=> u j Hu Hl. have [js [d [old [Fi Hd Ed Nl Eis]]]] := OWN u j Hu.
      have HL0 : Tdx_book.hist_len L nil by split; [exact: History_proofs.wf_nil|].
      have [d0 [old0 [Hd0 Ed0]]] := Tdx_book.update_own L _ _ _ _ HL0 Eis Nl. exists d, d0. split=> //. rewrite ES ES0. split=> //.
      have LI : Peano.le (L - 1) (length js). { have := Prelude_proofs.Forall2_len _ _ _ Fi. rewrite List.map_length. lia. }
      by rewrite (Tdx_book.latest_own L old js d (NP _ _ Fi) LI Ed) (Tdx_book.latest_own L old0 js d0 (NP _ _ Fi) LI Ed0).
  - move=> ->. case=> [E|H] T; last by case: H => H; [left|right].
    move/TI: T => [st E']. by rewrite E in E'.
Qed.

(** Scores. *)
Lemma le_trans' x y z : le x y = true -> le y z = true -> le x z = true.
Proof. rewrite /le => H1 H2. exact: Order.POrderTheory.le_trans H1 H2. Qed.
Lemma scores_length (x : @nti_state R) u sc : scores x u = Ok sc -> length sc = n_rows x 1.
Proof.
  rewrite /nti_scores /user_scores. case: dget => // d. case: (matvec _ _ _ _ _) => [w'|] //; cbn [bind]. case: take_rows => [vi|] //; cbn [bind].
  case: take_vec => [wp|] //; cbn [bind]. case: (matvec _ _ _ _ wp) => [p|] //; cbn [bind]. rewrite /matvec. case: (Nat.eqb _ _) => // -[<-].
  by rewrite List.map_length List.seq_length.
Qed.
Lemma users_index x P j : fresh_good x P -> Z.le 0 j /\ Z.lt j (Z.of_nat (n_rows x 0)) -> exists u, f_of (m_users (nt_maps x)) u = Some j.
Proof.
  move=> [st [I [FM FH FS [F0 F1]] M PE _]] Hj. have := Seqx_book.sinv_wf _ _ _ I => -[BU [BI [EU _]]].
  rewrite FM. have := BU => -[_ [FG RR]]. case E: (g_of (m_users (ti_maps st)) j) => [u|]; first by exists u; apply FG.
  exfalso. have := proj2 (RR j); rewrite E -EU /nusers -F0 => H. have X : Z.le Z0 j /\ Z.lt j (Z.add Z0 (Z.of_nat (n_rows x 0))). { clear -Hj. case: Hj => H1 H2. split; [exact: H1|]. exact H2. } by have [k0] := H X.
Qed.
Lemma scores_ok x x0 P u : trained x x0 P -> Tdx_book.hist_in (n_items_in P) (nt_seq x) -> Z.le 0 u /\ Z.lt u (Z.of_nat (n_rows x0 0)) ->
  exists sc, scores x u = Ok sc /\ length sc = n_rows x0 1.
Proof.
  move=> [G -> _ FI _] HI Hu. rewrite /nti_scores. cbn [with_seq nt_seq nt_fs nt_aw nt_last].
  have [uid Hd] := users_index G Hu. have [d [j [Ed [Hj NPj]]]] := FI _ _ Hd.
  have [_ _ _ CI] := Seqx_num.good_shapes G.
  have [st [_ _ M PE _]] := G. have [[_ _ SW] _ _ _ _] := M.
  have Pr : (L.-1 < L)%N by apply/ssrnat.ltP; lia.
  have [Ra Ca _] := Nti_scores.weight (e := Ordinal Pr) Sa Si SW erefl PE.
  have [SW1 _] := SW.
  have [_ US] := Attention_main.user_scores_main _ _ _ _ _ _ (LinAlg_bridge.RT [comRingType of R]) (nt_seq x) (factor (nt_fs x0) 1) (factor (nt_fs x0) 2) (nt_aw x0) (nt_last x0) u
    ltac:(by rewrite Ra SW1) Ca.
  have [_ [_ US1]] := US d Ed.
  have LP : Peano.lt 0 (length (latest_first d)).
  { have HJ : List.In j (latest_first d).
    { rewrite /latest_first -List.in_rev. apply List.filter_In. split=> //. by case: (Z.eqb_spec j PAD_VALUE). }
    by case: (latest_first d) HJ => //= *; lia. }
  have [||sc [E [Ls _]]] := US1; [| |by exists sc].
  - rewrite SW1. lia.
  - move=> t Ht. have Ht' : Peano.lt t (length (latest_first d)) by lia.
    have : List.In (List.nth t (latest_first d) Z0) (latest_first d) by exact: List.nth_In.
    move: (List.nth t (latest_first d) Z0) => i. rewrite /latest_first -List.in_rev => /List.filter_In [H1 H2].
    have NPi : i <> PAD_VALUE by move=> EP; move: H2; rewrite EP Z.eqb_refl.
    have := HI u d i Ed H1 NPi. move: CI. rewrite /n_rows /n_items_in => ->. by [].
Qed.
Lemma own_scores (x x0 : @nti_state R) u : x = with_seq x0 (nt_seq x) -> shape L (mc (factor (nt_fs x0) 2)) (factor (nt_fs x0) 2) -> own (nt_seq x) (nt_seq x0) u -> scores x u = scores x0 u.
Proof.
  move=> -> SW [d [d0 [E [E0 H]]]]. rewrite /nti_scores /user_scores. cbn [with_seq nt_seq nt_fs nt_aw nt_last]. rewrite E E0.
  have [-> _] := SW. by rewrite (Tdx_book.positions_same _ _ _ H).
Qed.

Notation patched := (Tdx_rec.patched 0).
Lemma describes_patched x x0 P : trained x x0 P -> Full_rec.describes (patched (nti_rec x)) P.
Proof.
  move=> [G -> _ _ _]. have [W B1 B2 B3 B4 B5 B6 B7] := Seqx_num.good_describes L2 Sa Si k1 G.
  constructor; rewrite /Tdx_rec.patched; cbn [rs_mappings rs_n_users rs_n_items rs_history rs_scores]; try assumption.
  have [W1 [W2 [W3 W4]]] := W. split; first exact: W1. split; last by split.
  move=> u Hu. cbn [rs_mappings rs_n_users rs_n_items rs_history rs_scores Seqx_model.nti_rec].
  case E: (scores _ u) => [sc|e]; last by exists (List.repeat 0 (n_rows x0 1)); rewrite List.repeat_length.
  exists sc. split=> //. exact: (scores_length E).
Qed.
Lemma describes_safe x x0 P : trained x x0 P -> Tdx_book.hist_in (n_items_in P) (nt_seq x) -> Full_rec.describes (nti_rec x) P.
Proof.
  move=> T HI. have [G Ex _ _ _] := T. have [W B1 B2 B3 B4 B5 B6 B7] := Seqx_num.good_describes L2 Sa Si k1 G.
  have SC := scores_ok T HI. move: SC. rewrite Ex => SC.
  constructor; rewrite /Seqx_model.nti_rec; cbn [rs_mappings rs_n_users rs_n_items rs_history rs_scores]; try assumption.
  have [W1 [W2 [W3 W4]]] := W. split; first exact: W1. split; last by split.
  move=> u Hu. exact: (SC u Hu).
Qed.

Definition good (x : @nti_state R) (d : list prow) (P : list irow) : Prop :=
  (exists x0, ntrain d nil = Ok x0 /\ trained x x0 P) /\ Tdx_book.alike (List.map p_row d) P.
Definition safe (x : @nti_state R) (P : list irow) : Prop := Tdx_book.hist_in (n_items_in P) (nt_seq x).

Section Run.
Context {V T : Type}.
Variables (norm : mat R -> V) (div : V -> V -> V) (minus_one : V) (clock : nat -> T).
Variables (test_users : list Z) (hm : Z) (st0 : @nti_state R) (table : list irow) (data : list prow) (stream : list (list DataPrep_model.row)).
Hypothesis CROP : get_df_with_cropped_pos_column table L true = Ok data.
Hypothesis E0 : nt_seq st0 = nil.
Notation n := (n_steps hm (length stream)).
Notation past := (recropped keep table stream).
Hypothesis TWO : forall t, Peano.le t n -> Z.le 2 (n_items_in (past t)).
Notation model_api := (td_api 0 +%R *%R of_val L (r0, r1, r2) a ainv qr rand rsvd tnorm norm0 grew n_iter force argpart k).
Notation experiment := (dynamical_experiment 0 sub norm div minus_one clock model_api (grow_3d L) test_users false hm st0 data stream).
Notation starts := (seq_trainable r0 r1 r2 L (keep table)).
Notation fits := (fun t => seq_trainable r0 r1 r2 L (past t.+1)).
Notation chosen := (fun x P => best le (nti_rec x) P).

Lemma train_cases : match train st0 data with
  | Ok s => starts /\ good s data (past 0%N) /\ safe s (past 0%N)
  | Err e => starts -> excuse e end.
Proof.
  have HL : Tdx_book.hist_len L (nt_seq st0) by rewrite E0; split; [exact: History_proofs.wf_nil|].
  have T0 : Z.le 2 (n_items_in (keep table)) by exact: (TWO (Nat.le_0_l _)).
  have := train_outcome CROP T0 HL. case: (train st0 data) => [x|e] // [H1 [H2 H3]]. split=> //. split; first split=> //.
  - exact: (Seqx_upd.crop_keep _ _ _ _ _ KEEP CROP).
  - apply: (H3 Z0); last by rewrite /n_items_in; lia. by rewrite E0.
Qed.
Lemma t_trained x d P : good x d P -> exists x0, trained x x0 P.
Proof. by move=> [[x0 [_ H]] _]; exists x0. Qed.
Lemma t_maps x x0 P : trained x x0 P -> nt_maps x = nt_maps x0 /\ nt_fs x = nt_fs x0.
Proof. by move=> [_ -> _ _ _]. Qed.
Lemma r_users x d P : good x d P -> bij (m_users (nt_maps x)) Z0.
Proof. by move=> /t_trained [x0 /describes_patched []]. Qed.
Lemma r_items x d P : good x d P -> bij (m_items (nt_maps x)) Z0.
Proof. by move=> /t_trained [x0 /describes_patched []]. Qed.
Lemma r_known x d P y : good x d P -> known (nt_maps x) y = heard P y.
Proof.
  move=> /t_trained [x0 /describes_patched [_ _ _ _ _ KU KI _]]. move: (KU (r_user y)) (KI (r_item y)).
  rewrite /Tdx_rec.patched /Seqx_model.nti_rec. cbn [rs_mappings]. rewrite /known /heard => {}KU {}KI.
  have M1 : memZ (r_user y) (List.map r_user P) = (if f_of (m_users (nt_maps x)) (r_user y) is Some _ then true else false).
  { apply/idP/idP => [/Prelude_proofs.memZ_spec/KU|H]; first by case: (f_of _ _).
    apply/Prelude_proofs.memZ_spec/KU. by case: (f_of _ _) H. }
  have M2 : memZ (r_item y) (List.map r_item P) = (if f_of (m_items (nt_maps x)) (r_item y) is Some _ then true else false).
  { apply/idP/idP => [/Prelude_proofs.memZ_spec/KI|H]; first by case: (f_of _ _).
    apply/Prelude_proofs.memZ_spec/KI. by case: (f_of _ _) H. }
  rewrite M1 M2. by case: (f_of _ (r_user y)) => [?|]; case: (f_of _ (r_item y)).
Qed.
Lemma good_two x d P : good x d P -> Peano.le 2 (length (catalogue P)).
Proof. by move=> /t_trained [x0 [[st []]]]. Qed.
Lemma r_rec_only x d P us b rows : good x d P -> recommend x us b = Ok rows -> forall u, List.In u us -> serves k P u.
Proof.
  move=> G E. have [x0 Tr] := t_trained G.
  apply (Full_rec.recommend_iff _ le_trans' _ AP _ _ (describes_patched Tr) _ k1 (good_two G) us b).
  exists rows. exact: Tdx_rec.patched_rec E.
Qed.
Lemma r_rec_if x d P us b : good x d P -> safe x P -> (forall u, List.In u us -> serves k P u) -> exists rows, recommend x us b = Ok rows.
Proof.
  move=> G HS H. have [x0 Tr] := t_trained G.
  by apply (Full_rec.recommend_iff _ le_trans' _ AP _ _ (describes_safe Tr HS) _ k1 (good_two G) us b).
Qed.
Lemma r_external x d P us rows : good x d P -> recommend x us false = Ok rows ->
  List.Forall2 (fun u row => offer k P u row /\ best le (nti_rec x) P u row) us rows.
Proof.
  move=> G E. have [x0 Tr] := t_trained G.
  have F := Full_rec.recommend_external _ le_trans' _ AP _ _ (describes_patched Tr) _ k1 (good_two G) us rows (Tdx_rec.patched_rec _ _ _ _ _ _ _ _ E).
  elim: F => [|u row us' rows' [H1 H2] _ IH]; first by []. constructor=> //. split=> //. exact: (Tdx_rec.patched_best _ _ _ _ _ _ H2).
Qed.
Lemma r_internal x d P us rows : good x d P -> recommend x us true = Ok rows ->
  length rows = length us /\
  List.Forall (fun row => length row = k /\ List.NoDup row /\ (forall j, List.In j row -> Z.le Z0 j /\ Z.lt j (Z.of_nat (length (catalogue P))))) rows.
Proof.
  move=> G E. have [x0 Tr] := t_trained G.
  exact: (Full_rec.recommend_internal _ le_trans' _ AP _ _ (describes_patched Tr) _ k1 (good_two G) us rows (Tdx_rec.patched_rec _ _ _ _ _ _ _ _ E)).
Qed.
Lemma r_shapes x d P : good x d P -> [/\ shape (n_rows x 0) r0 (factor (nt_fs x) 0), shape (n_rows x 1) r1 (factor (nt_fs x) 1),
  n_rows x 0 = ndistinct (List.map r_user P) & n_rows x 1 = ndistinct (List.map r_item P)].
Proof. by move=> /t_trained [x0 [G -> _ _ _]]; exact: (Seqx_num.good_shapes G). Qed.
Lemma r_n x d P : good x d P -> n_rows x 1 = length (catalogue P).
Proof. by move=> G; case: (r_shapes G). Qed.
Lemma r_u x d P : good x d P -> exists u, Ok (factor (nt_fs x) 0) = Ok u /\ mr u = length (List.nodup Z.eq_dec (List.map r_user P)) /\ mc u = r0.
Proof. move=> G; case: (r_shapes G) => [[S1 S2] _ S3 _]. exists (factor (nt_fs x) 0). by split. Qed.
Lemma r_v x d P : good x d P -> exists u, Ok (factor (nt_fs x) 1) = Ok u /\ mr u = length (catalogue P) /\ mc u = r1.
Proof. move=> G; case: (r_shapes G) => [_ [S1 S2] _ S3]. exists (factor (nt_fs x) 1). by split. Qed.

Lemma r_step t c x d : Peano.lt t n -> List.nth_error stream t = Some c -> good x d (past t) ->
  match Full_gen.upd_step model_api (grow_3d L) false (x, d) c with
  | Ok (s', d') => seq_trainable r0 r1 r2 L (past t.+1) /\ good s' d' (past t.+1) /\
      (safe x (past t) -> Full_gen.items_grow past t -> safe s' (past t.+1))
  | Err e => seq_trainable r0 r1 r2 L (past t.+1) -> excuse e end.
Proof.
  move=> Ht Ec G. rewrite /Full_gen.upd_step. cbn [fst snd]. rewrite /grow_3d /Retrain_model.grow_table.
  have [[x0 [_ Tr]] AL] := G. have [_ _ HL _ _] := Tr. have G2 := good_two G.
  have Ne : List.app (List.map p_row d) c <> nil.
  { case: d AL {G} => [|p d] AL; last by []. move=> _. move: G2. rewrite /catalogue.
    have -> : past t = nil; last by cbn; lia.
    case EP: (past t) AL => [|y l] // AL. exfalso. have := AL (r_user y). cbn. by rewrite Z.eqb_refl. }
  have [d' [CR _]] := History_proofs.crop_main _ L true (Nat.le_trans _ _ _ (Nat.le_succ_diag_r _) L2) Ne.
  have AL' : Tdx_book.alike (keep (List.app (List.map p_row d) c)) (past t.+1).
  { rewrite (Tdx_book.recropped_S _ _ _ _ _ Ec). apply: (Tdx_book.alike_keep L) => //. exact: Tdx_book.alike_app. }
  have EI : n_items_in (keep (List.app (List.map p_row d) c)) = n_items_in (past t.+1) by rewrite /n_items_in (Tdx_book.alike_count r_item _ _ AL').
  have T1 : Z.le 2 (n_items_in (keep (List.app (List.map p_row d) c))) by rewrite EI; exact: TWO.
  rewrite CR. cbn [bind]. rewrite /td_api. cbn [Dynamic_model.update].
  have := train_outcome CR T1 HL. move: (train x d') => res. case: res => [x'|e]; cbn [bind].
  - move=> [H1 [[x1 [H2 H3]] H4]]. split; first exact: (proj1 (Tdx_book.alike_trainable r0 r1 r2 L _ _ AL') H1).
    split.
    + split; first by exists x1; split=> //; exact: (trained_alike AL').
      move=> u. rewrite -AL'. exact: (Seqx_upd.crop_keep _ _ _ _ _ KEEP CR).
    + move=> HS IG. rewrite /safe -EI. apply: (H4 _ HS). rewrite EI /n_items_in. move: IG. rewrite /Full_gen.items_grow /catalogue /ndistinct. lia.
  - move=> H H'. apply: H. exact: (proj2 (Tdx_book.alike_trainable r0 r1 r2 L _ _ AL') H').
Qed.
Lemma r_more t : Peano.lt t.+1 n -> Full_gen.users_grow past t.
Proof.
  move=> Ht. have [c Ec] := Full_gen.chunk_at hm stream k k1 t (Nat.lt_succ_l _ _ Ht).
  rewrite /Full_gen.users_grow (Tdx_book.recropped_S _ _ _ _ _ Ec). apply: (Tdx_book.users_more L) => //. lia.
Qed.

Lemma fit_iff : Full_gen.all_fit test_users hm stream k past fits starts <-> retrainable r0 r1 r2 L k keep test_users table stream n.
Proof.
  split.
  - move=> [H1 [H2 H3]]. split; last by split=> // t c Ht Ec; case: (H2 t c Ht Ec).
    case=> [|t] Ht; first exact: H1. have [c Ec] := Full_gen.chunk_at hm stream k k1 t Ht. by case: (H2 t c Ht Ec).
  - move=> [H1 [H2 H3]]. split; first exact: (H1 0%N (Nat.le_0_l _)). split=> // t c Ht Ec. split; first exact: H2. exact: H1.
Qed.
Lemma grow_iff t : Full_gen.items_grow past t <-> items_stay keep table stream t.
Proof. by rewrite /Full_gen.items_grow /items_stay /n_items_in /ndistinct /catalogue; rewrite -Nat2Z.inj_le. Qed.

Lemma run_outcome : match experiment with
  | Ok _ => retrainable r0 r1 r2 L k keep test_users table stream n /\ (Peano.le 2 n -> items_stay keep table stream 0)
  | Err e => retrainable r0 r1 r2 L k keep test_users table stream n /\ (forall t, Peano.lt t.+1 n -> items_stay keep table stream t) -> excuse e end.
Proof.
  have := (@Full_gen.outcome_main _ _ _ _ _ 0 sub norm div minus_one clock model_api (grow_3d L) test_users false hm st0 data stream k k1
    past good safe fits starts chosen r0 r1 excuse train_cases r_users r_items r_known r_rec_only r_rec_if r_external r_internal r_n r_u r_v r_step r_more).
  case: experiment => [dyn|e].
  - move=> [H1 H2]. split; first exact/fit_iff. move=> N2. apply/grow_iff. apply: (H2 N2). have := TWO (t := 1%N). rewrite /n_items_in /catalogue /ndistinct. lia.
  - move=> H [H1 H2]. apply: H; first exact/fit_iff. by move=> t Ht; apply/grow_iff; apply: H2.
Qed.
Lemma own_best x x0 P u row : trained x x0 P -> Peano.le (L - 1) (length (rows_of u P)) -> best le (nti_rec x) P u row -> best le (nti_rec x0) P u row.
Proof.
  move=> [G Ex _ _ O] Hl B i j p q Hi Hj Nj. have [st [_ _ M _ _]] := G. have [[_ _ SW] _ _ _ _] := M.
  have SW' : shape L (mc (factor (nt_fs x0) 2)) (factor (nt_fs x0) 2) by case: SW => A1 A2; split.
  have := B i j p q Hi Hj Nj. rewrite /score_of /Seqx_model.nti_rec. cbn [rs_mappings rs_scores].
  have -> : nt_maps x = nt_maps x0 by rewrite Ex.
  case Eu: (f_of (m_users (nt_maps x0)) u) => [v|] //.
  by rewrite (own_scores Ex SW' (O u v Eu Hl)).
Qed.
Lemma run_report dyn : experiment = Ok dyn -> exists (model fresh : nat -> @nti_state R) (tables : nat -> list prow),
  train st0 data = Ok (model 0%N) /\ tables 0%N = data /\
  (forall t c, Peano.lt t n -> List.nth_error stream t = Some c ->
     get_df_with_cropped_pos_column (List.app (List.map p_row (tables t)) c) L true = Ok (tables t.+1) /\
     ntrain (tables t.+1) (nt_seq (model t)) = Ok (model t.+1) /\
     ntrain (tables t) nil = Ok (fresh t) /\
     exists h q, List.nth_error (d_hr dyn) t = Some h /\ List.nth_error (d_mrr dyn) t = Some q /\
       step_report k (fun u row => best le (nti_rec (model t)) (past t) u row /\
                        (Peano.le (L - 1) (length (rows_of u (past t))) -> best le (nti_rec (fresh t)) (past t) u row)) (past t) c h q) /\
  length (d_hr dyn) = n /\ length (d_mrr dyn) = n /\ length (d_wji dyn) = Nat.sub n 1 /\
  List.Forall (fun w => Qle 0 w /\ Qle w 1) (d_wji dyn).
Proof.
  move=> E. have [model [tbl [H1 [H2 [H3 H4]]]]] := (@Full_gen.report_main _ _ _ _ _ 0 sub norm div minus_one clock model_api (grow_3d L) test_users false hm st0 data stream k k1
    past good safe fits starts chosen excuse train_cases r_users r_items r_known r_rec_only r_rec_if r_external r_internal r_n r_step dyn E).
  have G : forall t, Peano.le t n -> good (model t) (tbl t) (past t).
  { elim=> [|t IH] Ht.
    - rewrite H2. have := train_cases. cbn [Dynamic_model.train td_api] in H1. rewrite H1. by case=> _ [].
    - have [c Ec] := Full_gen.chunk_at hm stream k k1 t Ht. have [U _] := H3 t c Ht Ec.
      have := r_step Ht Ec (IH (Nat.lt_le_incl _ _ Ht)). by rewrite (proj2 (Full_gen.upd_step_updates _ _ _ _ _ _ _ _) U) => -[_ []]. }
  exists model, (fun t => match ntrain (tbl t) nil with Ok x => x | Err _ => model t end), tbl. split; [exact: H1|]. split=> //. split; [|exact: H4].
  move=> t c Ht Ec. have [[U1 U2] [h [q [Eh [Eq Rp]]]]] := H3 t c Ht Ec. split; first exact: U1. split; first exact: U2.
  have [[x0 [E0' Tr]] _] := G t (Nat.lt_le_incl _ _ Ht). rewrite E0'. split=> //. exists h, q. split=> //. split=> //.
  apply: Tdx_rec.report_impl Rp => u row B. split=> // Hl. exact: (own_best Tr Hl B).
Qed.
End Run.
End Td.
