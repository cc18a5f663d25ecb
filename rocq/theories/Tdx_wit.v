(** Whole experiments of TDRec with rational numbers. *)
From Coq Require Import ZArith QArith Lia Sorted Permutation.
From Verif Require Import Prelude DataPrep_model DataPrep_spec History_model History_spec Recommend_model Recommend_spec Psi_model Tirec_model Tirec_spec
  Tensor_model Matrix_model Attention_model LinAlg_model Tucker_model Hooi_model Upd_model Nti_model Dynamic_model Full_spec Seqx_spec Seqx_model Tdx_spec Tdx_model.
From Verif Require Prelude_proofs History_proofs History_main Tirec_stream.
Set Warnings "-notation-overridden".
From mathcomp Require Import all_ssreflect all_algebra.
From Verif Require Import LinAlg_spec LinAlg_tables LinAlg_wit Tucker_spec Hooi_spec Hooi_wit Upd_spec Upd_wit Exact_wit Num_spec Nti_spec Nti_wit Cold_wit Full_wit Seqx_wit.
Set Implicit Arguments.
Unset Strict Implicit.
Unset Printing Implicit Defensive.
Import GRing.Theory Num.Theory.
Local Open Scope ring_scope.

Definition t_id (L : nat) : mat rat := eye_ 1 L L.
Definition t_data (L : nat) (t : list irow) : list prow := match get_df_with_cropped_pos_column t L true with Ok d => d | Err _ => nil end.
Definition t_keep (L : nat) (c : list irow) : list irow := List.map p_row (t_data L c).
Lemma t_crops L : Peano.le 1 L -> crops L true (t_keep L).
Proof.
  move=> L1 c u. rewrite /t_keep /t_data. case: c => [|r c].
    exists nil. split; last by cbn. split; [by constructor|]. by split.
  have NE : r :: c <> nil by [].
  have [out [E [_ H]]] := History_proofs.crop_main (r :: c) L true L1 NE. rewrite E.
  have [x [Hx Fx]] := H u. exists x. split=> //. rewrite /rows_of History_main.filter_map_comm. cbv beta. rewrite Fx.
  apply: Tirec_stream.map_fst_combine. rewrite Prelude_proofs.lastn_length History_proofs.zrange_length. lia.
Qed.
Definition t_api (L k : nat) := td_api (0 : rat) +%R *%R Nti_wit.f_of L (1, 1, 1)%N (t_id L) (t_id L)
  x_qr f_rand f_rsvd h_norm 0 h_grew 1 true f_argpart k.
Definition t_run (L k : nat) test_users table stream := dynamical_experiment (0 : rat) (fun x y => x - y) (fun _ => tt) (fun _ _ => tt) tt (fun _ => tt) (t_api L k) (grow_3d L)
  test_users false (Z.of_nat (length stream)) x_none (t_data L table) stream.

(** Deciding the conditions on the tables. *)
Definition d_serves (k : nat) (P : list irow) (u : Z) : bool := memZ u (List.map r_user P) && Nat.leb k (length (unseen P u)).
Lemma d_servesP k P u : d_serves k P u = true -> serves k P u.
Proof. rewrite /d_serves => /andP [/Prelude_proofs.memZ_spec H1 /PeanoNat.Nat.leb_le H2]. by split. Qed.
Definition d_testable (k : nat) (us : list Z) (P c : list irow) : bool :=
  List.existsb (heard P) c && List.forallb (fun r => ~~ heard P r || d_serves k P (r_user r)) c && List.forallb (d_serves k P) us.
Lemma d_testableP k us P c : d_testable k us P c = true -> testable k us P c.
Proof.
  move=> /andP [/andP [/List.existsb_exists H1 /List.forallb_forall H2] /List.forallb_forall H3]. split=> //. split.
  - move=> r Hr Hh. apply: d_servesP. have := H2 r Hr. by rewrite Hh.
  - move=> u Hu. exact/d_servesP/H3.
Qed.
Definition d_trainable (r0 r1 r2 L : nat) (P : list irow) : bool :=
  [&& Nat.leb r0 (Nat.mul r1 r2), Nat.leb r1 (Nat.mul r0 r2), Nat.leb r2 (Nat.mul r0 r1) & Nat.leb r2 L] &&
  [&& Z.leb (Z.of_nat r0) (n_users_in P), Z.leb (Z.of_nat r1) (n_items_in P) & List.existsb (fun u => Nat.eqb (length (rows_of u P)) L) (List.map r_user P)].
Lemma d_trainableP r0 r1 r2 L P : d_trainable r0 r1 r2 L P = true -> seq_trainable r0 r1 r2 L P.
Proof.
  move=> /andP [/and4P [/PeanoNat.Nat.leb_le H1 /PeanoNat.Nat.leb_le H2 /PeanoNat.Nat.leb_le H3 /PeanoNat.Nat.leb_le H4] /and3P [/Z.leb_le H5 /Z.leb_le H6 /List.existsb_exists [u [_ /PeanoNat.Nat.eqb_eq Hu]]]].
  split; first by []. split=> //. split=> //. by exists u.
Qed.
Definition d_retrainable (L k : nat) (us : list Z) (table : list irow) (stream : list (list irow)) : bool :=
  List.forallb (fun t => d_trainable 1 1 1 L (recropped (t_keep L) table stream t) && Z.leb 2 (n_items_in (recropped (t_keep L) table stream t))) (List.seq 0 (length stream).+1) &&
  List.forallb (fun t => match List.nth_error stream t with Some c => d_testable k us (recropped (t_keep L) table stream t) c | None => true end) (List.seq 0 (length stream)) &&
  match us with nil => false | _ => true end.
Lemma d_retrainableP L k us table stream : d_retrainable L k us table stream = true ->
  retrainable 1 1 1 L k (t_keep L) us table stream (length stream) /\
  (forall t, Peano.le t (length stream) -> Z.le 2 (n_items_in (recropped (t_keep L) table stream t))).
Proof.
  move=> /andP [/andP [/List.forallb_forall H1 /List.forallb_forall H2] H3].
  have I t n : Peano.lt t n -> List.In t (List.seq 0 n) by move=> H; apply/List.in_seq; lia.
  have J t : Peano.le t (length stream) -> List.In t (List.seq 0 (length stream).+1) by move=> H; apply: I; lia.
  split; last by move=> t /J /H1 /andP [_ /Z.leb_le].
  split; first by move=> t /J /H1 /andP [/d_trainableP H _].
  split; last by move=> _ E; rewrite E in H3.
  move=> t c Ht Ec. apply: d_testableP. by have := H2 t (I _ _ Ht); rewrite Ec.
Qed.

Lemma t_contracts : [/\ qr_ok x_qr, forall m, randn_ok (f_rand m) & inner_ok f_rsvd].
Proof. by case: x_contracts. Qed.
Lemma t_shape L : shape L L (t_id L).
Proof. by rewrite /t_id; split. Qed.
Lemma t_quiet e : (exists x, x_qr x = Err e) \/ (exists t x r, f_rsvd t x r = Err e) -> e = LinAlgError.
Proof.
  case=> [[x]|[t [x [r]]]]; last by [].
  rewrite /x_qr. elim: x_qr_table => [|[y b] l IH]; first by case. by cbn [lookup]; case: same.
Qed.
Lemma t_crop L table : is_ok (get_df_with_cropped_pos_column table L true) = true -> get_df_with_cropped_pos_column table L true = Ok (t_data L table).
Proof. rewrite /t_data. by case: get_df_with_cropped_pos_column. Qed.
(** Two users and three items, then a chunk with a new user and a new item, then another. *)
Definition t_stream := [:: x_c1; x_c2].
Lemma t_result : exists dyn, t_run 2 1 [:: Zpos 6] x_table t_stream = Ok dyn /\ d_hr dyn = [:: q1; q0] /\ d_mrr dyn = [:: q1; q0] /\ d_wji dyn = [:: Qmake Z0 2].
Proof. apply: numbers_ok. vm_compute. reflexivity. Qed.
(** User 5's first item is cropped away; user 6's old index of item 30 is then no item. *)
Definition t_stale : list irow := [:: x_row 5 10 1; x_row 5 20 2; x_row 5 20 3; x_row 6 30 1].
Definition t_stale_stream := [:: [:: x_row 5 20 4]; [:: x_row 6 20 5]].
Lemma t_stale_run : t_run 3 1 [:: Zpos 5] t_stale t_stale_stream = Err IndexError.
Proof. vm_compute. reflexivity. Qed.
Lemma t_stale_ok : d_retrainable 3 1 [:: Zpos 5] t_stale t_stale_stream = true.
Proof. vm_compute. reflexivity. Qed.
(** Two items are cropped away and one comes in; the item factor loses a row. *)
Definition t_shrink : list irow := [:: x_row 5 15 1; x_row 5 10 2; x_row 5 20 3; x_row 6 20 1; x_row 6 30 2].
Definition t_shrink_stream := [:: [:: x_row 5 20 4; x_row 5 20 5; x_row 7 40 6]; [:: x_row 6 40 7]].
Lemma t_shrink_run : t_run 3 1 [:: Zpos 6] t_shrink t_shrink_stream = Err ValueError.
Proof. vm_compute. reflexivity. Qed.
Lemma t_shrink_ok : d_retrainable 3 1 [:: Zpos 6] t_shrink t_shrink_stream = true.
Proof. vm_compute. reflexivity. Qed.
(** An item listed before is cropped away. *)
Definition t_lost : list irow := [:: x_row 5 10 1; x_row 5 20 2; x_row 6 20 1; x_row 6 30 2].
Definition t_lost_stream := [:: [:: x_row 5 20 3]; [:: x_row 5 20 3]].
Lemma t_lost_run : t_run 2 1 [:: Zpos 5] t_lost t_lost_stream = Err OutOfBounds.
Proof. vm_compute. reflexivity. Qed.
Lemma t_lost_ok : d_retrainable 2 1 [:: Zpos 5] t_lost t_lost_stream = true.
Proof. vm_compute. reflexivity. Qed.

Definition t_stops (e : exn) : Prop :=
  exists (L k : nat) (test_users : list Z) (table : list irow) (data : list prow) (stream : list (list irow)),
    Peano.le 2 L /\ Peano.le 1 k /\ get_df_with_cropped_pos_column table L true = Ok data /\
    (forall t, Peano.le t (length stream) -> Z.le 2 (n_items_in (recropped (t_keep L) table stream t))) /\
    retrainable 1 1 1 L k (t_keep L) test_users table stream (length stream) /\
    dynamical_experiment (0 : rat) (fun x y => x - y) (fun _ => tt) (fun _ _ => tt) tt (fun _ => tt) (t_api L k)
      (grow_3d L) test_users false (Z.of_nat (length stream)) x_none data stream = Err e.
Lemma t_stop L k us table stream e : Peano.le 2 L -> Peano.le 1 k -> is_ok (get_df_with_cropped_pos_column table L true) = true ->
  d_retrainable L k us table stream = true -> t_run L k us table stream = Err e -> t_stops e.
Proof.
  move=> H1 H2 H3 H4 H5. exists L, k, us, table, (t_data L table), stream. split; [exact: H1|]. split; [exact: H2|]. split; [exact: t_crop|].
  have [A1 A2] := d_retrainableP H4. split; [exact: A2|]. split; [exact: A1|exact: H5].
Qed.
Lemma t_refuted : (forall L, Peano.le 1 L -> crops L true (t_keep L) /\ shape L L (t_id L)) /\
  [/\ qr_ok x_qr, forall m, randn_ok (f_rand m) & inner_ok f_rsvd] /\
  argpartition_contract (fun x y : rat => x <= y) f_argpart /\
  (forall e, (exists x, x_qr x = Err e) \/ (exists t x r, f_rsvd t x r = Err e) -> e = LinAlgError) /\
  forall e, (e = IndexError \/ e = ValueError \/ e = OutOfBounds) ->
  exists (L k : nat) (test_users : list Z) (table : list irow) (data : list prow) (stream : list (list irow)),
    Peano.le 2 L /\ Peano.le 1 k /\ get_df_with_cropped_pos_column table L true = Ok data /\
    (forall t, Peano.le t (length stream) -> Z.le 2 (n_items_in (recropped (t_keep L) table stream t))) /\
    retrainable 1 1 1 L k (t_keep L) test_users table stream (length stream) /\
    dynamical_experiment (0 : rat) (fun x y => x - y) (fun _ => tt) (fun _ _ => tt) tt (fun _ => tt) (t_api L k)
      (grow_3d L) test_users false (Z.of_nat (length stream)) x_none data stream = Err e.
Proof.
  split; [move=> L L1; split; [exact: t_crops|exact: t_shape]|]. split; [exact: t_contracts|]. split; [exact: f_argpart_ok|]. split; [exact: t_quiet|].
  have L3 : Peano.le 2 3 by lia.
  move=> e [->|[->|->]].
  - have C : is_ok (get_df_with_cropped_pos_column t_stale 3 true) = true by (vm_compute; reflexivity). exact: (t_stop L3 (le_n 1) C t_stale_ok t_stale_run).
  - have C : is_ok (get_df_with_cropped_pos_column t_shrink 3 true) = true by (vm_compute; reflexivity). exact: (t_stop L3 (le_n 1) C t_shrink_ok t_shrink_run).
  - have C : is_ok (get_df_with_cropped_pos_column t_lost 2 true) = true by (vm_compute; reflexivity). exact: (t_stop (le_n 2) (le_n 1) C t_lost_ok t_lost_run).
Qed.
Lemma t_case : Z.le 2 (n_items_in (recropped (t_keep 2) x_table t_stream 0)) /\
  retrainable 1 1 1 2 1 (t_keep 2) [:: Zpos 6] x_table t_stream 2 /\
  items_stay (t_keep 2) x_table t_stream 0 /\
  exists dyn, t_run 2 1 [:: Zpos 6] x_table t_stream = Ok dyn /\ d_hr dyn = [:: q1; q0] /\ d_mrr dyn = [:: q1; q0] /\ d_wji dyn = [:: Qmake Z0 2].
Proof.
  split; [vm_compute; discriminate|].
  have H : d_retrainable 2 1 [:: Zpos 6] x_table t_stream = true by vm_compute.
  split; [exact: (proj1 (d_retrainableP H))|]. split; [vm_compute; discriminate|exact: t_result].
Qed.
