(** Whole experiments of TDRecRe with rational numbers. *)
From Coq Require Import ZArith QArith Lia.
From Verif Require Import Prelude DataPrep_model DataPrep_spec History_model History_spec Recommend_model Recommend_spec Psi_model Tirec_model Tirec_spec
  Tensor_model Matrix_model Attention_model LinAlg_model Tucker_model Hooi_model Upd_model Nti_model Dynamic_model Full_spec Seqx_spec Seqx_model Rex_spec Rex_model.
From Verif Require Prelude_proofs History_proofs History_main Rex_book.
Set Warnings "-notation-overridden".
From mathcomp Require Import all_ssreflect all_algebra.
From Verif Require Import LinAlg_spec LinAlg_tables LinAlg_wit Tucker_spec Hooi_spec Hooi_wit Upd_spec Upd_wit Exact_wit Num_spec Nti_spec Nti_wit Cold_wit Full_wit Seqx_wit Tdx_wit.
Set Implicit Arguments.
Unset Strict Implicit.
Unset Printing Implicit Defensive.
Import GRing.Theory Num.Theory.
Local Open Scope ring_scope.

(** The successive tables exist. *)
Fixpoint e_tables (L : nat) (data : list prow) (stream : list (list irow)) (t : nat) : list prow :=
  match t, stream with
  | t'.+1, c :: s => e_tables L (t_data L (List.app (List.map p_row data) c)) s t'
  | _, _ => data
  end.
Lemma e_cropped L d c : Peano.le 1 L -> d <> nil -> let d' := t_data L (List.app (List.map p_row d) c) in
  get_df_with_cropped_pos_column (List.app (List.map p_row d) c) L true = Ok d' /\ d' <> nil.
Proof.
  move=> L1 NE. have NE' : List.app (List.map p_row d) c <> nil by case: d NE.
  have [d' [E _]] := History_proofs.crop_main _ L true L1 NE'. rewrite /t_data E. cbv zeta. split; first by [].
  have [I _] := Rex_book.next_table _ _ _ _ E. move=> Z1. rewrite Z1 in I.
  case: d NE {NE' E} I => [|p d] // _ I. by have := I _ (or_introl erefl).
Qed.
Lemma e_successive L data stream n : Peano.le 1 L -> data <> nil -> successive L data stream n (e_tables L data stream).
Proof.
  move=> L1 NE. split; first by case: stream.
  move=> t c _. elim: t data stream NE => [|t IH] data [|c' s] NE //.
  - move=> [->]. have [E _] := e_cropped c L1 NE. have E1 : e_tables L data (c :: s) 1 = t_data L (List.app (List.map p_row data) c) by case: (s). rewrite E1. exact: E.
  - move=> Ec. have [_ NE'] := e_cropped c' L1 NE. exact: (IH _ s NE' Ec).
Qed.
Lemma e_exists L table data stream n : get_df_with_cropped_pos_column table L true = Ok data -> exists tables, successive L data stream n tables.
Proof.
  move=> E. have [L1 NE] := History_main.crop_ok_hyps _ _ _ _ E. have K := Rex_book.next_table L nil table data.
  have ND : data <> nil.
  { move=> ED. rewrite ED in E. case: table NE E {K} => [|r l] // _ E.
    have [x [Hx [_ Ex]]] := Rex_book.cropped_user _ _ _ (r_user r) E. have := History_main.StableSorted_length _ _ _ Hx. move: Ex. cbn. rewrite Z.eqb_refl. move=> Ex.
    have := Prelude_proofs.lastn_length L x. rewrite -Ex. cbn. lia. }
  exists (e_tables L data stream). exact: e_successive.
Qed.

Definition e_api (L k : nat) := re_api (0 : rat) +%R *%R Nti_wit.f_of L (1, 1, 1)%N (t_id L) (t_id L)
  x_qr f_rand f_rsvd h_norm 0 h_grew 1 true f_argpart k.
Definition e_run (L k : nat) test_users table stream := dynamical_experiment (0 : rat) (fun x y => x - y) (fun _ => tt) (fun _ _ => tt) tt (fun _ => tt) (e_api L k) (grow_3d L)
  test_users false (Z.of_nat (length stream)) x_none (t_data L table) stream.

(** Deciding the conditions on the tables. *)
Definition e_serves (k : nat) (E P : list irow) (u : Z) : bool := memZ u (List.map r_user P) && Nat.leb k (length (open_to E P u)).
Lemma e_servesP k E P u : e_serves k E P u = true -> serves_from k E P u.
Proof. rewrite /e_serves => /andP [/Prelude_proofs.memZ_spec H1 /PeanoNat.Nat.leb_le H2]. by split. Qed.
Definition e_testable (k : nat) (us : list Z) (E P c : list irow) : bool :=
  List.existsb (heard E) c && List.forallb (fun r => ~~ heard E r || e_serves k E P (r_user r)) c && List.forallb (e_serves k E P) us.
Lemma e_testableP k us E P c : e_testable k us E P c = true -> testable_from k us E P c.
Proof.
  move=> /andP [/andP [/List.existsb_exists H1 /List.forallb_forall H2] /List.forallb_forall H3]. split=> //. split.
  - move=> r Hr Hh. apply: e_servesP. have := H2 r Hr. by rewrite Hh.
  - move=> u Hu. exact/e_servesP/H3.
Qed.
Definition e_newest (a b l : list Z) (i : Z) : bool :=
  match List.list_eq_dec Z.eq_dec l (List.app a (i :: b)) with left _ => true | right _ => false end && ~~ memZ i a && List.forallb (fun x => memZ x (i :: a)) b.
Lemma e_newestP a b l i : e_newest a b l i = true -> newest l i.
Proof.
  rewrite /e_newest. case: List.list_eq_dec => [El|//]. move=> /andP [H1 /List.forallb_forall H2]. exists a, b. split=> //. split.
  - move=> Hi. by move: H1; rewrite (proj2 (Prelude_proofs.memZ_spec i a) Hi).
  - move=> x Hx. exact: (proj1 (Prelude_proofs.memZ_spec x (i :: a)) (H2 x Hx)).
Qed.

(** Item 10 is no longer in the table after the first chunk; user 6 is recommended it before the
    second one, and takes it. *)
Definition e_table : list irow := [:: x_row 5 10 1; x_row 5 20 2; x_row 6 30 1; x_row 6 40 2].
Definition e_stream := [:: [:: x_row 5 20 3]; [:: x_row 6 10 4]].
Notation e_tabs := (e_tables 2 (t_data 2 e_table) e_stream).
Lemma e_fits : reinitialisable 1 1 1 2 2 [:: Zpos 6] e_stream e_tabs 2.
Proof.
  split; [apply: d_trainableP; vm_compute; reflexivity|]. split; [|by []].
  move=> [|[|t]] c Ht; [| |lia].
  - move=> [<-]. split; [apply: e_testableP; vm_compute; reflexivity|]. exists (Zpos 40). split.
    + apply: (@e_newestP [:: Zpos 10; Zpos 20; Zpos 30] [:: Zpos 20; Zpos 20; Zpos 30; Zpos 40]). vm_compute. reflexivity.
    + vm_compute. tauto.
  - move=> [<-]. split; [apply: e_testableP; vm_compute; reflexivity|]. exists (Zpos 40). split.
    + apply: (@e_newestP [:: Zpos 10; Zpos 20; Zpos 30] [:: Zpos 20; Zpos 20; Zpos 30; Zpos 40; Zpos 20; Zpos 20; Zpos 40; Zpos 10]). vm_compute. reflexivity.
    + vm_compute. tauto.
Qed.
Lemma e_result : exists dyn, e_run 2 2 [:: Zpos 6] e_table e_stream = Ok dyn /\ d_hr dyn = [:: q0; q1] /\ d_mrr dyn = [:: q0; Qmake (Zpos 1) 2] /\ d_wji dyn = [:: Qmake (Zpos 6) 6].
Proof. apply: numbers_ok. vm_compute. reflexivity. Qed.
Lemma e_case : get_df_with_cropped_pos_column e_table 2 true = Ok (t_data 2 e_table) /\
  successive 2 (t_data 2 e_table) e_stream 2 e_tabs /\ Z.le 2 (n_items_in (List.map p_row (t_data 2 e_table))) /\
  reinitialisable 1 1 1 2 2 [:: Zpos 6] e_stream e_tabs 2 /\
  ~ List.In (Zpos 10) (List.map r_item (kept e_tabs 1)) /\ List.In (Zpos 10) (open_to (so_far e_tabs 1) (kept e_tabs 1) (Zpos 6)) /\
  exists dyn, e_run 2 2 [:: Zpos 6] e_table e_stream = Ok dyn /\ d_hr dyn = [:: q0; q1] /\ d_mrr dyn = [:: q0; Qmake (Zpos 1) 2] /\ d_wji dyn = [:: Qmake (Zpos 6) 6].
Proof.
  split; [apply: t_crop; vm_compute; reflexivity|]. split.
    have ND : t_data 2 e_table <> nil by (vm_compute; discriminate). apply: e_successive; [lia|exact: ND].
  split; [vm_compute; discriminate|]. split; [exact: e_fits|]. split; [vm_compute; intuition discriminate|]. split; [vm_compute; tauto|exact: e_result].
Qed.

(** User 6's second item was the last to come in and leaves the table. *)
Definition e_gone := [:: [:: x_row 6 20 3; x_row 6 20 4]].
Notation e_gtabs := (e_tables 2 (t_data 2 e_table) e_gone).
Lemma e_gone_run : e_run 2 2 [:: Zpos 6] e_table e_gone = Err ValueError.
Proof. vm_compute. reflexivity. Qed.
Lemma e_refuted : (forall L, shape L L (t_id L)) /\
  [/\ qr_ok x_qr, forall m, randn_ok (f_rand m) & inner_ok f_rsvd] /\
  argpartition_contract (fun x y : rat => x <= y) f_argpart /\
  (forall e, (exists x, x_qr x = Err e) \/ (exists t x r, f_rsvd t x r = Err e) -> e = LinAlgError) /\
  exists (L k : nat) (test_users : list Z) (table : list irow) (data : list prow) (stream : list (list irow)) (tables : nat -> list prow),
    Peano.le 2 L /\ Peano.le 1 k /\ get_df_with_cropped_pos_column table L true = Ok data /\ successive L data stream (length stream) tables /\
    (forall t, Peano.le t (length stream) -> Z.le 2 (n_items_in (kept tables t)) /\ seq_trainable 1 1 1 L (kept tables t)) /\
    (forall t c, List.nth_error stream t = Some c -> testable_from k test_users (so_far tables t) (kept tables t) c) /\ test_users <> nil /\
    dynamical_experiment (0 : rat) (fun x y => x - y) (fun _ => tt) (fun _ _ => tt) tt (fun _ => tt) (e_api L k)
      (grow_3d L) test_users false (Z.of_nat (length stream)) x_none data stream = Err ValueError.
Proof.
  split; [exact: t_shape|]. split; [exact: t_contracts|]. split; [exact: f_argpart_ok|]. split; [exact: t_quiet|].
  exists 2%N, 2%N, [:: Zpos 6], e_table, (t_data 2 e_table), e_gone, e_gtabs. split; [lia|]. split; [lia|]. split; [apply: t_crop; vm_compute; reflexivity|].
  split.
    have ND : t_data 2 e_table <> nil by (vm_compute; discriminate). apply: e_successive; [lia|exact: ND].
  split.
    move=> [|[|t]] Ht; [| |cbn in Ht; lia].
    - split; [vm_compute; discriminate|apply: d_trainableP; vm_compute; reflexivity].
    - split; [vm_compute; discriminate|apply: d_trainableP; vm_compute; reflexivity].
  split; [|split; [discriminate|exact: e_gone_run]].
  move=> [|[|t]] c; [|discriminate|discriminate]. move=> [<-]. apply: e_testableP. vm_compute. reflexivity.
Qed.
