(** Whole experiments of TIRec and TIRecA. *)
From Coq Require Import ZArith QArith.
From Coq Require List.
From Verif Require Import Prelude DataPrep_model DataPrep_spec History_model History_spec Recommend_model Recommend_spec Psi_model Tirec_model Tirec_spec
  Tensor_model Matrix_model Attention_model Attention_spec LinAlg_model Tucker_model Hooi_model Upd_model Nti_model Dynamic_model Dynamic_spec Full_spec Seqx_spec Seqx_model.
From Verif Require DataPrep_main Full_rec Full_gen Full_exp Full_psi DataPrep_proofs Tirec_stream Nti_train Nti_scores Attention_main Seqx_book Seqx_inv.
Set Warnings "-notation-overridden".
From mathcomp Require Import all_ssreflect all_algebra.
From Coq Require Import Lia.
From Verif Require Import LinAlg_spec Tucker_spec Hooi_spec Upd_spec Exact_spec Num_spec Nti_spec.
From Verif Require Nti_sim LinAlg_bridge.
Set Implicit Arguments.
Unset Strict Implicit.
Unset Printing Implicit Defensive.
Import Order.TTheory GRing.Theory Num.Theory.
Local Open Scope ring_scope.

Section Seq.
Variable R : realFieldType.
Variable of_val : Z -> R.
Variables exceeds_eps is_one : R -> bool.
Hypothesis IS1 : forall y, is_one y = true -> y = 1.
Variables (cfg : nti_cfg) (L r0 r1 r2 : nat) (a ainv : mat R) (att : option (mat R)) (s : bool).
Hypotheses (L2 : Peano.le 2 L) (P0 : (0 < r0)%N) (P1 : (0 < r1)%N) (P2 : (0 < r2)%N).
Hypotheses (Ha : att_shape L att) (Sa : shape L L a) (Si : shape L L ainv).
Variables (qr : mat R -> res (mat R * mat R)) (rand : nat -> nat -> nat -> mat R) (rsvd : nat -> mat R -> nat -> res (mat R * list R * mat R)).
Hypotheses (QR : qr_ok qr) (RAND : forall m, randn_ok (rand m)) (INNER : inner_ok rsvd).
Variables (N : Type) (tnorm : ten R -> N) (norm0 : N) (grew : N -> N -> bool) (n_iter : nat) (force : bool).
Hypothesis NI : (0 < n_iter)%N.
Variable rt : @nti_state R -> mode -> routines R.
Hypothesis RT : forall x md, rt_ok (rt x md).
Variable argpart : nat -> list R -> nat -> list nat.
Let le (x y : R) : bool := x <= y.
Hypothesis AP : argpartition_contract le argpart.
Variable k : nat.
Hypothesis k1 : Peano.le 1 k.
Variable keep : list DataPrep_model.row -> list DataPrep_model.row.
Hypothesis KEEP : crops L s keep.
Variables (table : list DataPrep_model.row) (data : list prow).
Hypothesis CROP : get_df_with_cropped_pos_column table L s = Ok data.
Hypothesis TWO : Z.le 2 (n_items_in (keep table)).
Notation v := (nc_variant cfg).
Notation sub := (fun x y : R => x - y).
Notation train := (seq_train 0 +%R *%R of_val L (r0, r1, r2) a ainv qr rand rsvd tnorm norm0 grew n_iter force).
Notation update := (seq_update 0 1 +%R *%R sub of_val exceeds_eps is_one cfg L a ainv att s rt).
Notation nti_rec := (nti_rec 0 +%R *%R).
Notation recommend := (nti_recommend 0 +%R *%R argpart k).

Lemma le_trans' x y z : le x y = true -> le y z = true -> le x z = true.
Proof. exact: le_trans. Qed.

Definition excuse (e : exn) : Prop :=
  (exists x, qr x = Err e) \/ (exists t x r, rsvd t x r = Err e) \/ (exists x md, rt_raises (rt x md) e).
Definition good (x : @nti_state R) (P : list DataPrep_model.row) : Prop :=
  exists st, [/\ Seqx_book.sinv L st P, follows x st, model_ok r0 r1 r2 L x,
    position_embeddings 0 +%R *%R a ainv (factor (nt_fs x) 2) = Ok (nt_aw x, nt_last x) & Peano.le 2 (length (catalogue P))].

Lemma two_more P Q : Peano.le 2 (length (catalogue P)) -> Peano.le 2 (length (catalogue (List.app P Q))).
Proof. move=> H. have := Full_exp.distinct_grow r_item P Q. rewrite /catalogue in H *. lia. Qed.

Lemma train_outcome st0 : nt_seq st0 = nil -> match train st0 data with
  | Ok x => seq_trainable r0 r1 r2 L (keep table) /\ good x (keep table)
  | Err e => seq_trainable r0 r1 r2 L (keep table) -> excuse e
  end.
Proof.
  move=> E0. rewrite /seq_train E0.
  have TI := Seqx_inv.train_iff L s keep table data r0 r1 r2 KEEP CROP.
  have := Nti_sim.train_sim of_val Sa Si tnorm norm0 grew force nil QR RAND INNER P0 P1 P2 NI (Nti_train.cropped_positions _ _ _ _ CROP).
  case: nti_train => [x|e].
  - move=> [st E [F M PE]]. split; first by apply/TI; exists st.
    exists st. split=> //; first exact: (Seqx_inv.sinv_train _ _ _ _ _ _ _ KEEP CROP E).
    move: TWO. rewrite /n_items_in /catalogue /ndistinct. lia.
  - case=> [E|H] T; last by case: H => H; [left|right; left].
    move/TI: T => [st E']. by rewrite E in E'.
Qed.

Lemma update_outcome x P c : good x P -> match update x c with
  | Ok x' => seq_fits v L keep P c /\ good x' (List.app P (keep c))
  | Err e => seq_fits v L keep P c -> excuse e
  end.
Proof.
  move=> [st [I F M PE T2]]. have L1 : Peano.le 1 L by lia.
  have SU := Seqx_inv.sinv_update v L s keep st P c L1 KEEP I.
  have := Nti_sim.update_sim of_val exceeds_eps IS1 cfg Ha Sa Si (RT x) c s (Seqx_book.sinv_wf _ _ _ I) F M.
  rewrite /seq_update. case: nti_update => [x'|e].
  - move=> [st' E [F' M' PE']]. rewrite E in SU. case: SU => SF I'. split=> //. exists st'. split=> //. exact: two_more.
  - case=> [[e' E]|[md H]] SF; first by rewrite E in SU.
    by right; right; exists x, md.
Qed.

Lemma good_shapes x P : good x P -> [/\ shape (n_rows x 0) r0 (factor (nt_fs x) 0), shape (n_rows x 1) r1 (factor (nt_fs x) 1),
  n_rows x 0 = ndistinct (List.map r_user P) & n_rows x 1 = ndistinct (List.map r_item P)].
Proof.
  move=> [st [I F M PE _]]. have [CU CI] := Seqx_book.sinv_counts _ _ _ I. have [_ _ _ [F0 F1]] := F.
  have [[S0 S1 _] _ _ _ _] := M. split=> //.
  - move: CU. rewrite /nusers /n_users_in F0 => /Nat2Z.inj. by [].
  - move: CI. rewrite /nitems /n_items_in F1 => /Nat2Z.inj. by [].
Qed.

Lemma scores_ok x P u : good x P -> Z.le 0 u /\ Z.lt u (Z.of_nat (n_rows x 0)) ->
  exists sc, nti_scores 0 +%R *%R x u = Ok sc /\ length sc = n_rows x 1.
Proof.
  move=> [st [I F M PE _]] Hu. have W := Seqx_book.sinv_wf _ _ _ I. have [_ _ FS [F0 F1]] := F.
  have [[_ _ SW] _ _ _ _] := M.
  have Pr : (L.-1 < L)%N by apply/ssrnat.ltP; lia.
  have [Ra Ca _] := Nti_scores.weight (e := Ordinal Pr) Sa Si SW erefl PE.
  have [SW1 _] := SW.
  have [_ US] := Attention_main.user_scores_main _ _ _ _ _ _ (LinAlg_bridge.RT [comRingType of R]) (nt_seq x) (factor (nt_fs x) 1) (factor (nt_fs x) 2) (nt_aw x) (nt_last x) u
    ltac:(by rewrite Ra SW1) Ca.
  have := W => -[_ [_ [_ [_ [_ [_ [_ [_ [WK WS]]]]]]]]].
  have [d Hd] : exists d, dget u (nt_seq x) = Some d.
  { apply Prelude_proofs.dget_Some_in. rewrite FS. apply WK. by rewrite /nusers -F0. }
  have [_ [_ US1]] := US d Hd.
  have LP : Peano.lt 0 (length (latest_first d)).
  { rewrite FS in Hd. have [_ [_ [_ [j [Hj NP]]]]] := WS u d Hd.
    have HI : List.In j (latest_first d).
    { rewrite /latest_first -List.in_rev. apply List.filter_In. split=> //. by case: (Z.eqb_spec j PAD_VALUE). }
    by case: (latest_first d) HI => //= *; lia. }
  have [||sc [E [Ls _]]] := US1; [| |by exists sc].
  - rewrite SW1. lia.
  - move=> t Ht. apply: (Nti_scores.items_inside W F Hd). lia.
Qed.

Lemma good_describes x P : good x P -> Full_rec.describes (nti_rec x) P.
Proof.
  move=> G. have [st [I [FM FH FS [F0 F1]] M PE _]] := G. have W := Seqx_book.sinv_wf _ _ _ I.
  have := W => -[BU [BI [EU [EI [_ [_ [HH _]]]]]]].
  have NU : Z.of_nat (n_rows x 0) = nusers st by rewrite /nusers F0.
  have NJ : Z.of_nat (n_rows x 1) = nitems st by rewrite /nitems F1.
  constructor; rewrite /Seqx_model.nti_rec; cbn [rs_mappings rs_n_users rs_n_items rs_history rs_scores]; rewrite ?FM ?FH ?NU ?NJ //.
  - rewrite /wf_state. cbn [rs_mappings rs_n_users rs_n_items rs_history rs_scores]. rewrite ?FH ?FM ?NU ?NJ. split; first exact: HH.
    split; first by move=> u Hu; apply: (scores_ok G); rewrite NU.
    split.
    + move=> q u H. have := DataPrep_main.bij_f_nonneg _ _ _ BU H. rewrite -EU. lia.
    + move=> j Hj. case: BI => _ [_ RR]. apply RR. rewrite -EI. lia.
  - move=> q. exact: (Seqx_book.sinv_known_u _ _ _ q I).
  - move=> q. exact: (Seqx_book.sinv_known_i _ _ _ q I).
  - move=> u j. exact: (Seqx_book.sinv_hist _ _ _ u j I).
Qed.
Lemma good_two x P : good x P -> Peano.le 2 (length (catalogue P)).
Proof. by move=> [st []]. Qed.

Section Run.
Context {V T : Type}.
Variables (norm : mat R -> V) (div : V -> V -> V) (minus_one : V) (clock : nat -> T).
Variables (test_users : list Z) (hm : Z) (st0 : @nti_state R) (stream : list (list DataPrep_model.row)).
Hypothesis E0 : nt_seq st0 = nil.
Notation model_api := (seq_api 0 1 +%R *%R sub of_val exceeds_eps is_one cfg L (r0, r1, r2) a ainv att s qr rand rsvd tnorm norm0 grew n_iter force rt argpart k).
Notation n := (n_steps hm (length stream)).
Notation experiment := (dynamical_experiment 0 sub norm div minus_one clock model_api (grow_3d L) test_users true hm st0 data stream).
Notation ok := (fun x (_ : list prow) P => good x P).

Lemma r_users x (d : list prow) P : ok x d P -> bij (m_users (nt_maps x)) Z0.
Proof. by move=> /good_describes []. Qed.
Lemma r_items x (d : list prow) P : ok x d P -> bij (m_items (nt_maps x)) Z0.
Proof. by move=> /good_describes []. Qed.
Lemma r_known x (d : list prow) P y : ok x d P -> known (nt_maps x) y = heard P y.
Proof.
  move=> /good_describes [_ _ _ _ _ KU KI _]. move: (KU (r_user y)) (KI (r_item y)).
  rewrite /Seqx_model.nti_rec. cbn [rs_mappings]. rewrite /known /heard => {}KU {}KI.
  have M1 : memZ (r_user y) (List.map r_user P) = (if f_of (m_users (nt_maps x)) (r_user y) is Some _ then true else false).
  { apply/idP/idP => [/Prelude_proofs.memZ_spec/KU|H]; first by case: (f_of _ _).
    apply/Prelude_proofs.memZ_spec/KU. by case: (f_of _ _) H. }
  have M2 : memZ (r_item y) (List.map r_item P) = (if f_of (m_items (nt_maps x)) (r_item y) is Some _ then true else false).
  { apply/idP/idP => [/Prelude_proofs.memZ_spec/KI|H]; first by case: (f_of _ _).
    apply/Prelude_proofs.memZ_spec/KI. by case: (f_of _ _) H. }
  rewrite M1 M2. by case: (f_of _ (r_user y)) => [?|]; case: (f_of _ (r_item y)).
Qed.
Lemma r_rec x (d : list prow) P us b : ok x d P ->
  (exists rows, recommend x us b = Ok rows) <-> (forall u, List.In u us -> serves k P u).
Proof. move=> G. exact: (Full_rec.recommend_iff _ le_trans' _ AP _ _ (good_describes G) _ k1 (good_two G)). Qed.
Lemma r_external x (d : list prow) P us rows : ok x d P -> recommend x us false = Ok rows ->
  List.Forall2 (fun u row => offer k P u row /\ best le (nti_rec x) P u row) us rows.
Proof. move=> G. exact: (Full_rec.recommend_external _ le_trans' _ AP _ _ (good_describes G) _ k1 (good_two G)). Qed.
Lemma r_internal x (d : list prow) P us rows : ok x d P -> recommend x us true = Ok rows ->
  length rows = length us /\
  List.Forall (fun row => length row = k /\ List.NoDup row /\ (forall j, List.In j row -> Z.le Z0 j /\ Z.lt j (Z.of_nat (length (catalogue P))))) rows.
Proof. move=> G. exact: (Full_rec.recommend_internal _ le_trans' _ AP _ _ (good_describes G) _ k1 (good_two G)). Qed.
Lemma r_n x (d : list prow) P : ok x d P -> n_rows x 1 = length (catalogue P).
Proof. by move=> G; case: (good_shapes G). Qed.
Lemma r_u x (d : list prow) P : ok x d P -> exists u, Ok (factor (nt_fs x) 0) = Ok u /\ mr u = length (List.nodup Z.eq_dec (List.map r_user P)) /\ mc u = r0.
Proof. move=> G; case: (good_shapes G) => [[S1 S2] _ S3 _]. exists (factor (nt_fs x) 0). by split. Qed.
Lemma r_v x (d : list prow) P : ok x d P -> exists u, Ok (factor (nt_fs x) 1) = Ok u /\ mr u = length (catalogue P) /\ mc u = r1.
Proof. move=> G; case: (good_shapes G) => [_ [S1 S2] _ S3]. exists (factor (nt_fs x) 1). by split. Qed.
Lemma r_step x (d : list prow) P c : ok x d P -> match Full_gen.upd_step model_api (grow_3d L) true (x, d) c with
  | Ok (s', d') => seq_fits v L keep P c /\ good s' (List.app P (keep c)) | Err e => seq_fits v L keep P c -> excuse e end.
Proof.
  move=> G. have := update_outcome c G. rewrite /Full_gen.upd_step /seq_api. cbn [fst snd Dynamic_model.update].
  by case: (update x c) => [s'|e]; cbn [bind].
Qed.

Lemma run_outcome : match experiment with
  | Ok _ => seq_trainable r0 r1 r2 L (keep table) /\ feasible k (seq_fits v L keep) keep test_users (keep table) stream n
  | Err e => seq_trainable r0 r1 r2 L (keep table) /\ feasible k (seq_fits v L keep) keep test_users (keep table) stream n -> excuse e end.
Proof.
  exact: (@Full_exp.outcome_main _ _ _ _ _ 0 sub norm div minus_one clock model_api (grow_3d L) test_users true hm st0 data (keep table) stream k k1
    keep ok (seq_fits v L keep) (seq_trainable r0 r1 r2 L (keep table)) _ r0 r1 excuse (train_outcome E0) r_users r_items r_known r_rec r_external r_internal r_n r_u r_v r_step).
Qed.
Lemma run_report dyn : experiment = Ok dyn -> exists model : nat -> @nti_state R, train st0 data = Ok (model 0%N) /\
  (forall t c, Peano.lt t n -> List.nth_error stream t = Some c -> update (model t) c = Ok (model t.+1) /\
     exists h q, List.nth_error (d_hr dyn) t = Some h /\ List.nth_error (d_mrr dyn) t = Some q /\
       step_report k (best le (nti_rec (model t)) (past keep (keep table) stream t)) (past keep (keep table) stream t) c h q) /\
  length (d_hr dyn) = n /\ length (d_mrr dyn) = n /\ length (d_wji dyn) = Nat.sub n 1 /\
  List.Forall (fun w => Qle 0 w /\ Qle w 1) (d_wji dyn).
Proof.
  move=> E. have [model [tbl [H1 [H2 [H3 H4]]]]] := (@Full_exp.report_main _ _ _ _ _ 0 sub norm div minus_one clock model_api (grow_3d L) test_users true hm st0 data (keep table) stream k k1
    keep ok (seq_fits v L keep) (seq_trainable r0 r1 r2 L (keep table)) _ excuse (train_outcome E0) r_users r_items r_known r_rec r_external r_internal r_n r_step dyn E).
  exists model. split; [exact: H1|]. split; [|exact: H4]. move=> t c Ht Ec. have [[_ U] Rp] := H3 t c Ht Ec. by split.
Qed.
End Run.
End Seq.
