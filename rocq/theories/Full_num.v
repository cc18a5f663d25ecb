(** Whole experiments of PSI and of the retrained SVD. *)
From Coq Require Import ZArith QArith.
From Coq Require List.
From Verif Require Import Prelude DataPrep_model DataPrep_spec Recommend_model Recommend_spec Psi_model Psi_spec Tensor_model Matrix_model Attention_model LinAlg_model Num_model Dynamic_model Dynamic_spec Full_spec Full_model.
From Verif Require Full_rec Full_gen Full_exp Full_psi Psi_main DataPrep_proofs.
Set Warnings "-notation-overridden".
From mathcomp Require Import all_ssreflect all_algebra.
From Coq Require Import Lia.
From Verif Require Import LinAlg_spec Upd_spec Exact_spec Num_spec.
From Verif Require Num_main.
Set Implicit Arguments.
Unset Strict Implicit.
Unset Printing Implicit Defensive.
Import Order.TTheory GRing.Theory Num.Theory.
Local Open Scope ring_scope.

Section Full.
Variable R : realFieldType.
Variable of_rel : Z -> R.
Variables (qr : mat R -> res (mat R * mat R)) (svd : mat R -> res (mat R * list R * mat R)).
Variables (rsvd : mat R -> nat -> res (mat R * list R * mat R)) (exceeds_eps : R -> bool).
Variables (argsort : list R -> list nat) (normal : nat -> nat -> mat R).
Variable svds : mat R -> nat -> res (mat R * list R * mat R).
Variable argpart : nat -> list R -> nat -> list nat.
Let le (x y : R) : bool := x <= y.
Hypotheses (QR : qr_ok qr) (SV : svd_ok svd) (TR : truncated_ok rsvd) (AS : argsort_ok le argsort) (NO : randn_ok normal).
Hypothesis SO : svds_mat_ok svds.
Hypothesis AP : argpartition_contract le argpart.
Variables (k : nat) (rank : Z) (cfg : psi_cfg).
Hypothesis k1 : Peano.le 1 k.
Notation r := (Z.to_nat rank).
Notation sub := (fun x y : R => x - y).
Notation train := (num_train 0 +%R of_rel svds rank).
Notation update := (num_update 0 1 +%R *%R sub of_rel qr svd rsvd exceeds_eps argsort normal cfg).
Notation num_rec := (num_rec 0 +%R *%R).

Lemma le_trans' x y z : le x y = true -> le y z = true -> le x z = true.
Proof. exact: le_trans. Qed.

Lemma train_outcome data : match train data with
  | Ok x => [/\ trainable rank data, model_ok r x & Psi_main.inv (nm_book x) data]
  | Err e => trainable rank data -> exists x, svds x r = Err e
  end.
Proof.
  case E: (train data) => [x|e].
  - have [T M _] := Num_main.train_book SO E. split=> //; last exact: Psi_main.train_inv T.
    apply/Full_psi.svd_train_iff. by exists (nm_book x).
  - move=> /Full_psi.svd_train_iff [st Es]. move: E. rewrite /num_train Es. cbn [bind].
    have [df [ms [Eg _]]] := DataPrep_proofs.reindex_ok data. rewrite Eg. cbn [bind].
    by case Ev: (svds _ r) => [[[u s] vt]|e']; cbn [bind] => // -[<-]; eexists; exact: Ev.
Qed.

Definition excuse (e : exn) : Prop := (exists x, svds x r = Err e) \/ routine_raises qr svd rsvd r e.
Definition good (x : @num_state R) (P : list DataPrep_model.row) : Prop := model_ok r x /\ Psi_main.inv (nm_book x) P.

Lemma update_outcome x P c : good x P -> match update x c with
  | Ok x' => psi_fits cfg P c /\ good x' (P ++ c)
  | Err e => psi_fits cfg P c -> excuse e
  end.
Proof.
  move=> [M I]. have B := Num_main.update_book of_rel exceeds_eps QR SV TR AS NO cfg c M.
  have [O1 O2] := Psi_main.psi_update_outcome_main cfg _ c (Psi_main.inv_aligned _ _ I).
  have FI : psi_fits cfg P c <-> exists st', psi_update cfg (nm_book x) c = Ok st'.
  { rewrite /psi_fits. case E1: (cf_init cfg) O1 O2 => O1 O2; case E2: (cf_integrator cfg) O1 O2 => O1 O2;
      (split; [move=> F|move=> [st' F]]); try exact: I0; try done.
    - by rewrite O1 in F.
    - apply O2 => //. move=> _. exact/(Full_psi.inv_brand _ _ c I).
    - apply/(Full_psi.inv_brand _ _ c I). by apply O2 => //; exists st'.
    - by apply O2. - by apply O2. - by apply O2. - by apply O2. }
  case E: (update x c) B => [x'|e] B.
  - case: B => B M'. split; first by apply/FI; exists (nm_book x').
    split=> //. exact: Psi_main.update_inv I B.
  - move=> /FI [st' F]. case: B => [B|B]; first by right. by rewrite F in B.
Qed.

Lemma good_shapes x P : good x P -> [/\ mr (nm_f x).1.1 = ndistinct (List.map r_user P), mc (nm_f x).1.1 = r,
  mr (nm_f x).2 = r & mc (nm_f x).2 = ndistinct (List.map r_item P)].
Proof.
  move=> [[_ [[S1 S2] _ [S3 S4] _]] I]. have [C1 C2] := Full_psi.inv_counts _ _ I.
  move: S1 S4. rewrite /users_of /items_of C1 C2 /n_users_in /n_items_in !Nat2Z.id. by [].
Qed.
Lemma good_describes x P : good x P -> Full_rec.describes (num_rec x) P.
Proof.
  move=> G. have [S1 S2 S3 S4] := good_shapes G. have [M I] := G. have [C1 C2] := Full_psi.inv_counts _ _ I.
  have Sc : forall u, Z.le 0 u /\ Z.lt u (Z.of_nat (mr (nm_f x).1.1)) ->
    exists s, num_scores 0 +%R *%R x (Z.to_nat u) = Ok s /\ length s = mc (nm_f x).2.
  { move=> u Hu. rewrite (Num_main.scores_rows _ M). case: ifP => Hlt.
    - eexists. split; [reflexivity|]. have -> : forall (T : Type) (l : list T), length l = size l by []. rewrite size_map size_iota /items_of C2 /n_items_in Nat2Z.id S4. by [].
    - exfalso. move/negP: Hlt. apply. apply/ssrnat.ltP. rewrite /users_of C1 /n_users_in -S1. lia. }
  rewrite /Full_model.num_rec. move: S1 S2 S3 S4 Sc. case: (nm_f x) => [[u s] vt] /= S1 S2 S3 S4 Sc.
  apply: Full_psi.inv_describes; [exact: I|rewrite C1 S1; reflexivity|rewrite C2 S4; reflexivity|exact: Sc].
Qed.
Lemma good_two x P : good x P -> Peano.le 2 (length (catalogue P)).
Proof.
  move=> [_ I]. have [_ C2] := Full_psi.inv_counts _ _ I. move: I => [_ [H _]]. move: H. rewrite C2 /n_items_in /catalogue /ndistinct. lia.
Qed.

(** Any model with this state, trained and updated somehow. *)
Section Any.
Context {V T : Type}.
Variables (norm : mat R -> V) (div : V -> V -> V) (minus_one : V) (clock : nat -> T).
Variables (test_users : list Z) (hm : Z) (st0 : @num_state R) (initial : list DataPrep_model.row) (stream : list (list DataPrep_model.row)).
Variables (tr : @num_state R -> list DataPrep_model.row -> res (@num_state R)).
Variables (up : @num_state R -> list DataPrep_model.row + list DataPrep_model.row -> res (@num_state R)) (chunk_mode : bool).
Definition any_api : api (@num_state R) (list DataPrep_model.row) R :=
  mkApi _ _ _ tr up (fun x => ps_maps (nm_book x)) (svd_recommend 0 +%R *%R argpart k) (fun x => mc (snd (nm_f x))) (@svd_get_u R) (svd_get_v 0).
Variable ok : @num_state R -> list DataPrep_model.row -> list DataPrep_model.row -> Prop.
Hypothesis ok_good : forall x d P, ok x d P -> good x P.
Variables (fits : list DataPrep_model.row -> list DataPrep_model.row -> Prop) (starts : Prop).
Hypothesis train_cases : match tr st0 initial with Ok s => starts /\ ok s initial initial | Err e => starts -> excuse e end.
Hypothesis update_cases : forall s d P c, ok s d P -> match Full_gen.upd_step any_api grow_2d chunk_mode (s, d) c with
  | Ok (s', d') => fits P c /\ ok s' d' (List.app P c) | Err e => fits P c -> excuse e end.
Notation keep := (fun c : list DataPrep_model.row => c).
Notation experiment := (dynamical_experiment 0 sub norm div minus_one clock any_api grow_2d test_users chunk_mode hm st0 initial stream).
Notation n := (n_steps hm (length stream)).

Lemma any_users s d P : ok s d P -> bij (m_users (ps_maps (nm_book s))) Z0.
Proof. by move/ok_good => [[[]]]. Qed.
Lemma any_items s d P : ok s d P -> bij (m_items (ps_maps (nm_book s))) Z0.
Proof. by move/ok_good => [[[_ []]]]. Qed.
Lemma any_known s d P y : ok s d P -> known (ps_maps (nm_book s)) y = heard P y.
Proof. by move/ok_good => [_ I]; apply: Full_psi.inv_known. Qed.
Lemma any_rec s d P us b : ok s d P ->
  (exists rows, svd_recommend 0 +%R *%R argpart k s us b = Ok rows) <-> (forall u, List.In u us -> serves k P u).
Proof. move=> /ok_good G. exact: (Full_rec.recommend_iff _ le_trans' _ AP _ _ (good_describes G) _ k1 (good_two G)). Qed.
Lemma any_external s d P us rows : ok s d P -> svd_recommend 0 +%R *%R argpart k s us false = Ok rows ->
  List.Forall2 (fun u row => offer k P u row /\ best le (num_rec s) P u row) us rows.
Proof. move=> /ok_good G. exact: (Full_rec.recommend_external _ le_trans' _ AP _ _ (good_describes G) _ k1 (good_two G)). Qed.
Lemma any_internal s d P us rows : ok s d P -> svd_recommend 0 +%R *%R argpart k s us true = Ok rows ->
  length rows = length us /\
  List.Forall (fun row => length row = k /\ List.NoDup row /\ (forall j, List.In j row -> Z.le Z0 j /\ Z.lt j (Z.of_nat (length (catalogue P))))) rows.
Proof. move=> /ok_good G. exact: (Full_rec.recommend_internal _ le_trans' _ AP _ _ (good_describes G) _ k1 (good_two G)). Qed.
Lemma any_n s d P : ok s d P -> mc (nm_f s).2 = length (catalogue P).
Proof. by move=> /ok_good G; case: (good_shapes G). Qed.
Lemma any_u s d P : ok s d P -> exists u, svd_get_u s = Ok u /\ mr u = length (List.nodup Z.eq_dec (List.map r_user P)) /\ mc u = r.
Proof. by move=> /ok_good G; case: (good_shapes G) => S1 S2 _ _; exists (nm_f s).1.1. Qed.
Lemma any_v s d P : ok s d P -> exists v, svd_get_v 0 s = Ok v /\ mr v = length (catalogue P) /\ mc v = r.
Proof. by move=> /ok_good G; case: (good_shapes G) => _ _ S3 S4; exists (transpose 0 (nm_f s).2). Qed.

Lemma any_outcome : match experiment with
  | Ok _ => starts /\ feasible k fits keep test_users initial stream n
  | Err e => starts /\ feasible k fits keep test_users initial stream n -> excuse e end.
Proof.
  exact: (@Full_exp.outcome_main _ _ _ _ _ 0 sub norm div minus_one clock any_api grow_2d test_users chunk_mode hm st0 initial initial stream k k1
    keep ok fits starts _ r r excuse train_cases any_users any_items any_known any_rec any_external any_internal any_n any_u any_v update_cases).
Qed.
Lemma any_report dyn : experiment = Ok dyn -> exists (model : nat -> @num_state R) (table : nat -> list DataPrep_model.row),
  tr st0 initial = Ok (model 0%N) /\ table 0%N = initial /\
  (forall t c, Peano.lt t n -> List.nth_error stream t = Some c ->
     updates any_api grow_2d chunk_mode (model t) (table t) c (model t.+1) (table t.+1) /\
     exists h q, List.nth_error (d_hr dyn) t = Some h /\ List.nth_error (d_mrr dyn) t = Some q /\
       step_report k (best le (num_rec (model t)) (past keep initial stream t)) (past keep initial stream t) c h q) /\
  length (d_hr dyn) = n /\ length (d_mrr dyn) = n /\ length (d_wji dyn) = Nat.sub n 1 /\
  List.Forall (fun w => Qle 0 w /\ Qle w 1) (d_wji dyn).
Proof.
  exact: (@Full_exp.report_main _ _ _ _ _ 0 sub norm div minus_one clock any_api grow_2d test_users chunk_mode hm st0 initial initial stream k k1
    keep ok fits starts _ excuse train_cases any_users any_items any_known any_rec any_external any_internal any_n update_cases dyn).
Qed.
End Any.

Section Two.
Context {V T : Type}.
Variables (norm : mat R -> V) (div : V -> V -> V) (minus_one : V) (clock : nat -> T).
Variables (test_users : list Z) (hm : Z) (st0 : @num_state R) (initial : list DataPrep_model.row) (stream : list (list DataPrep_model.row)).
Notation keep := (fun c : list DataPrep_model.row => c).
Notation n := (n_steps hm (length stream)).
Notation psi := (psi_api 0 1 +%R *%R sub of_rel qr svd rsvd exceeds_eps argsort normal svds argpart k rank cfg).
Notation retrained := (svd_api 0 +%R *%R of_rel svds argpart k rank).

Lemma psi_train : match train initial with Ok s => trainable rank initial /\ good s initial | Err e => trainable rank initial -> excuse e end.
Proof.
  have := train_outcome initial. case: (train initial) => [s [H1 H2 H3]|e H]; first by split.
  by move=> /H X; left.
Qed.
Lemma psi_step s (d P c : list DataPrep_model.row) : good s P -> match Full_gen.upd_step psi grow_2d true (s, d) c with
  | Ok (s', d') => psi_fits cfg P c /\ good s' (List.app P c) | Err e => psi_fits cfg P c -> excuse e end.
Proof.
  move=> G. have := update_outcome c G. rewrite /Full_gen.upd_step /psi_api. cbn [fst snd Dynamic_model.update].
  by case: (update s c) => [s'|e]; cbn [bind].
Qed.
Lemma psi_outcome : match dynamical_experiment 0 sub norm div minus_one clock psi grow_2d test_users true hm st0 initial stream with
  | Ok _ => trainable rank initial /\ feasible k (psi_fits cfg) keep test_users initial stream n
  | Err e => trainable rank initial /\ feasible k (psi_fits cfg) keep test_users initial stream n -> excuse e end.
Proof. exact: (@any_outcome _ _ norm div minus_one clock test_users hm st0 initial stream _ _ true (fun x _ P => good x P) (fun x d P H => H) _ _ psi_train psi_step). Qed.
Lemma psi_report dyn : dynamical_experiment 0 sub norm div minus_one clock psi grow_2d test_users true hm st0 initial stream = Ok dyn ->
  exists model : nat -> @num_state R, train initial = Ok (model 0%N) /\
  (forall t c, Peano.lt t n -> List.nth_error stream t = Some c -> update (model t) c = Ok (model t.+1) /\
     exists h q, List.nth_error (d_hr dyn) t = Some h /\ List.nth_error (d_mrr dyn) t = Some q /\
       step_report k (best le (num_rec (model t)) (past keep initial stream t)) (past keep initial stream t) c h q) /\
  length (d_hr dyn) = n /\ length (d_mrr dyn) = n /\ length (d_wji dyn) = Nat.sub n 1 /\
  List.Forall (fun w => Qle 0 w /\ Qle w 1) (d_wji dyn).
Proof.
  move=> E. have [model [table [H1 [H2 [H3 H4]]]]] := (@any_report _ _ norm div minus_one clock test_users hm st0 initial stream _ _ true (fun x _ P => good x P) (fun x d P H => H) _ _ psi_train psi_step dyn E).
  exists model. split; [exact: H1|]. split; [|exact: H4]. move=> t c Ht Ec. have [[_ U] Rp] := H3 t c Ht Ec. by split.
Qed.

Definition trained x (d P : list DataPrep_model.row) : Prop := [/\ good x P, d = P, trainable rank P & train P = Ok x].
Lemma trainable_more P c : trainable rank P -> trainable rank (List.app P c).
Proof.
  move=> [H1 [H2 H3]]. have G1 := Full_exp.distinct_grow r_user P c. have G2 := Full_exp.distinct_grow r_item P c.
  rewrite /trainable /n_users_in /n_items_in /ndistinct in H2 H3 *. split; [exact: H1|]. move: H2 H3 G1 G2. clear. lia.
Qed.
Lemma svd_train0 : match train initial with Ok s => trainable rank initial /\ trained s initial initial | Err e => trainable rank initial -> excuse e end.
Proof.
  have := train_outcome initial. case E: (train initial) => [s|e]; last by move=> H /H X; left.
  by move=> [H1 H2 H3]; split.
Qed.
Lemma svd_step s (d P c : list DataPrep_model.row) : trained s d P -> match Full_gen.upd_step retrained grow_2d false (s, d) c with
  | Ok (s', d') => True /\ trained s' d' (List.app P c) | Err e => True -> excuse e end.
Proof.
  move=> [G -> Tr _]. have := train_outcome (List.app P c). rewrite /Full_gen.upd_step /svd_api /grow_2d. cbn [fst snd Dynamic_model.update bind].
  have Tr' := trainable_more c Tr.
  case E: (train (List.app P c)) => [s'|e]; cbn [bind]; last by move=> /(_ Tr') H _; left.
  by move=> [H1 H2 H3]; do 2 split.
Qed.
Lemma svd_outcome : match dynamical_experiment 0 sub norm div minus_one clock retrained grow_2d test_users false hm st0 initial stream with
  | Ok _ => trainable rank initial /\ feasible k (fun _ _ => True) keep test_users initial stream n
  | Err e => trainable rank initial /\ feasible k (fun _ _ => True) keep test_users initial stream n -> excuse e end.
Proof. exact: (@any_outcome _ _ norm div minus_one clock test_users hm st0 initial stream _ _ false trained (fun x d P H => let: And4 G _ _ _ := H in G) _ _ svd_train0 svd_step). Qed.
Lemma svd_report dyn : dynamical_experiment 0 sub norm div minus_one clock retrained grow_2d test_users false hm st0 initial stream = Ok dyn ->
  exists model : nat -> @num_state R,
  (forall t, Peano.le t n -> train (past keep initial stream t) = Ok (model t)) /\
  (forall t c, Peano.lt t n -> List.nth_error stream t = Some c ->
     exists h q, List.nth_error (d_hr dyn) t = Some h /\ List.nth_error (d_mrr dyn) t = Some q /\
       step_report k (best le (num_rec (model t)) (past keep initial stream t)) (past keep initial stream t) c h q) /\
  length (d_hr dyn) = n /\ length (d_mrr dyn) = n /\ length (d_wji dyn) = Nat.sub n 1 /\
  List.Forall (fun w => Qle 0 w /\ Qle w 1) (d_wji dyn).
Proof.
  move=> E. have [model [table [H1 [H2 [H3 H4]]]]] := (@any_report _ _ norm div minus_one clock test_users hm st0 initial stream _ _ false trained (fun x d P H => let: And4 G _ _ _ := H in G) _ _ svd_train0 svd_step dyn E).
  exists model. split.
  - suff : forall t, Peano.le t n -> table t = past keep initial stream t /\ train (past keep initial stream t) = Ok (model t).
    { by move=> H t /H []. }
    elim=> [|t IH] Ht.
    + rewrite /past. cbn [List.firstn List.map List.concat]. rewrite List.app_nil_r. by split.
    + have [Et _] := IH ltac:(lia).
      have [c Ec] := Full_exp.chunk_at hm stream k k1 t Ht.
      have [U _] := H3 t c Ht Ec. rewrite (Full_exp.past_S _ _ _ _ _ Ec).
      move: U. rewrite /updates /grow_2d Et. move=> [-[Ed] U]. rewrite -Ed. split=> //. by rewrite -Ed in U.
  - split; [|exact: H4]. move=> t c Ht Ec. by case: (H3 t c Ht Ec).
Qed.
End Two.
End Full.
