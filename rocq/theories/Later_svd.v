(** C109: SVD; PSI. *)
From Coq Require Import ZArith QArith Lia.
From Coq Require List.
From Verif Require Import Prelude DataPrep_model DataPrep_spec Psi_model Tensor_model Matrix_model Attention_model LinAlg_model Num_model Dynamic_model Full_model Later_spec.
From Verif Require Full_num Prelude_proofs DataPrep_proofs Dynamic_spec Later_main.
Set Warnings "-notation-overridden".
From mathcomp Require Import all_ssreflect all_algebra.
From Verif Require Import LinAlg_spec LinAlg_tables LinAlg_wit Upd_spec Upd_wit Num_spec Num_wit Full_spec Full_wit Columns_wit.
Set Implicit Arguments.
Unset Strict Implicit.
Unset Printing Implicit Defensive.
Import GRing.Theory Num.Theory.
Local Open Scope ring_scope.

Lemma distinct_more (l l' : list Z) : Peano.le (ndistinct l) (ndistinct (l ++ l')%list).
Proof.
  rewrite -!DataPrep_proofs.unique_length_ndistinct. apply: List.NoDup_incl_length; first exact: Prelude_proofs.unique_NoDup.
  move=> x /Prelude_proofs.unique_In H. apply/Prelude_proofs.unique_In. apply: List.in_or_app. by left.
Qed.

Section SVD.
Variable R : realFieldType.
Variable of_rel : Z -> R.
Variable svds : mat R -> nat -> res (mat R * list R * mat R).
Hypothesis SO : svds_mat_ok svds.
Variable argpart : nat -> list R -> nat -> list nat.
Variables (k : nat) (rank : Z).
Notation svd := (svd_api 0 +%R *%R of_rel svds argpart k rank).

Lemma svd_forgets : forgets svd.
Proof. by []. Qed.

Lemma items_count d s v : num_train 0 +%R of_rel svds rank d = Ok s -> svd_get_v 0 s = Ok v -> mr v = ndistinct (List.map r_item d).
Proof.
  move=> E. have := Full_num.train_outcome of_rel SO rank d. rewrite E => -[_ M I].
  have [_ _ _ S4] := Full_num.good_shapes (conj M I). rewrite /svd_get_v => -[<-]. exact: S4.
Qed.

Lemma svd_keeps_items : keeps_items svd grow_2d.
Proof.
  move=> d c d' s0 s0' s s' v v'. rewrite /grow_2d => -[<-] E E' V V'.
  rewrite (items_count E V) (items_count E' V') List.map_app. exact: distinct_more.
Qed.
End SVD.

(** PSI: user 2 comes back with item 20; the update keeps the old direction. *)
Definition l_initial : list irow := [:: mkRow 1 10 1 2; mkRow 2 20 1 1].
Definition l_chunk : list irow := [:: mkRow 2 20 2 3].
Definition l_two (v : rat) : mat rat := mkMat 2 1 [:: 0; v].
Definition l_svds := trunc_lookup [:: (mkMat 2 2 [:: 2%:Q; 0; 0; 1], (c_col 1, [:: 2%:Q], c_row 1));
  (mkMat 2 2 [:: 2%:Q; 0; 0; 4%:Q], (l_two 1, [:: 4%:Q], mkMat 1 2 [:: 0; 1]))].
Lemma l_contract : svds_mat_ok l_svds.
Proof. apply: f_svds_ok. vm_compute. reflexivity. Qed.
Definition l_kept := do x <- num_train (0 : rat) +%R o_rel l_svds (Zpos 1) l_initial; do y <- c_update x l_chunk; Ok (nm_f y).
Definition l_fresh := do y <- num_train (0 : rat) +%R o_rel l_svds (Zpos 1) (l_initial ++ l_chunk); Ok (nm_f y).
Lemma l_runs : l_kept = Ok (c_col 1, SMat (c_one 2%:Q), c_row 1) /\ l_fresh = Ok (l_two 1, SVec [:: 4%:Q], mkMat 1 2 [:: 0; 1]).
Proof. split; vm_compute; reflexivity. Qed.

Lemma l_psi :
  exists (qr : mat rat -> res (mat rat * mat rat)) sv rsvd eps argsort normal svds (of_rel : Z -> rat) (argpart : nat -> list rat -> nat -> list nat) cfg initial chunk,
  [/\ qr_ok qr, svd_ok sv, truncated_ok rsvd, argsort_ok (fun x y : rat => x <= y) argsort & svds_mat_ok svds] /\
  let psi := psi_api (0 : rat) 1 +%R *%R (fun x y => x - y) of_rel qr sv rsvd eps argsort normal svds argpart 1 (Zpos 1) cfg in
  exists x y z u u',
  [/\ forall s0, train psi s0 initial = Ok x, update psi x (inl chunk) = Ok y, forall s0, train psi s0 (initial ++ chunk)%list = Ok z,
      get_u psi y = Ok u /\ get_u psi z = Ok u' & u <> u'].
Proof.
  exists c_qr, demo_svd, w_rsvd, w_eps, rat_argsort, r_randn, l_svds, o_rel, (fun _ _ _ => nil), f_cfg, l_initial, l_chunk.
  split; [have [H1 H2 H3 H4 _] := c_contracts; split; [exact: H1|exact: H2|exact: H3|exact: H4|exact: l_contract]|].
  have [H1 H2] := l_runs. move: H1 H2. rewrite /l_kept /l_fresh.
  case E0 : (num_train _ _ _ _ _ l_initial) => [x|e]; cbn [bind]; [|discriminate].
  rewrite /c_update. case E1 : (num_update _ _ _ _ _ _ _ _ _ _ _ _ _ _ _) => [y|e]; cbn [bind]; [|discriminate].
  case E2 : (num_train _ _ _ _ _ (l_initial ++ l_chunk)) => [z|e]; cbn [bind]; [|discriminate].
  move=> F1 F2. case: F1 => F1. case: F2 => F2.
  exists x, y, z, (c_col 1), (l_two 1). cbn [psi_api train update get_u]. split; [move=> _; exact: E0|exact: E1|move=> _; exact: E2| |].
  - rewrite /svd_get_u F1 F2. split; reflexivity.
  - move=> Q. have : (fun m : mat rat => mget 0 m 0 0) (c_col 1) = (fun m : mat rat => mget 0 m 0 0) (l_two 1) by rewrite Q.
    move/eqP => B. have C : ((fun m : mat rat => mget 0 m 0 0) (c_col 1) == (fun m : mat rat => mget 0 m 0 0) (l_two 1)) = false by (vm_compute; reflexivity).
    rewrite B in C. discriminate.
Qed.

(** The run of Full_wit.g_result, started one group later. *)
Lemma l_tail : exists dyn, g_run 2 (g_data ++ g_c1) [:: g_c2] = Ok dyn /\ d_hr dyn = [:: q1] /\ d_mrr dyn = [:: qhalf] /\ d_wji dyn = [::].
Proof. apply: numbers_ok. vm_compute. reflexivity. Qed.

Lemma grown_2d l : forall d, grown grow_2d d l = Ok (d ++ List.concat l)%list.
Proof.
  elim: l => [|c l IH] d; cbn [grown List.concat]; first by rewrite List.app_nil_r.
  rewrite /grow_2d. cbn [bind]. rewrite -/grow_2d IH List.app_assoc. reflexivity.
Qed.

Lemma svd_later (R : realFieldType) (of_rel : Z -> R) svds (argpart : nat -> list R -> nat -> list nat) k rank : svds_mat_ok svds ->
  forall (V T : Type) (norm : mat R -> V) (div : V -> V -> V) (minus_one : V) (clock : nat -> T)
    (test_users : list Z) (how_many : Z) (st0 st0' : @num_state R) initial stream dyn (j : nat),
  let experiment := dynamical_experiment 0 (fun x y => x - y) norm div minus_one clock (svd_api 0 +%R *%R of_rel svds argpart k rank) grow_2d test_users false in
  experiment how_many st0 initial stream = Ok dyn -> Peano.lt j (Dynamic_spec.n_steps how_many (length stream)) ->
  exists dyn', experiment (left_over how_many j) st0' (initial ++ List.concat (List.firstn j stream))%list (List.skipn j stream) = Ok dyn' /\ tail_of j dyn dyn'.
Proof.
  move=> SO V T norm div m1 clock tu hm st0 st0' d s dyn j experiment E L.
  have [d' [dyn' [G [E' H]]]] := Later_main.start_later _ _ _ _ _ _ _ _ _ (@svd_forgets R of_rel svds argpart k rank)
    (@svd_keeps_items R of_rel svds SO argpart k rank) _ st0 st0' _ _ _ j E L.
  move: G. rewrite grown_2d => -[G]. exists dyn'. rewrite G. split; [exact: E'|exact: H].
Qed.
