(** A whole experiment of TIRecA with rational numbers: two users and three items, then two
    chunks, the first with a new user and a new item. *)
From Coq Require Import ZArith QArith Lia Sorted Permutation.
From Verif Require Import Prelude DataPrep_model DataPrep_spec History_model History_spec Recommend_model Recommend_spec Psi_model Tirec_model Tirec_spec
  Tensor_model Matrix_model Attention_model LinAlg_model Tucker_model Hooi_model Upd_model Nti_model Dynamic_model Full_spec Seqx_spec Seqx_model.
From Verif Require Prelude_proofs History_proofs History_main Tirec_stream.
Set Warnings "-notation-overridden".
From mathcomp Require Import all_ssreflect all_algebra.
From Verif Require Import LinAlg_spec LinAlg_tables LinAlg_wit Tucker_spec Hooi_spec Hooi_wit Upd_spec Upd_wit Exact_wit Num_spec Nti_spec Nti_wit Cold_wit Full_wit.
Set Implicit Arguments.
Unset Strict Implicit.
Unset Printing Implicit Defensive.
Import GRing.Theory Num.Theory.
Local Open Scope ring_scope.

Definition x_id : mat rat := eye_ 1 2 2.
Definition x_row (u i t : Z) : irow := mkRow u i t 1.
Definition x_table : list irow := [:: x_row 5 10 1; x_row 5 20 2; x_row 6 30 1].
Definition x_c1 : list irow := [:: x_row 6 20 3; x_row 7 40 4].
Definition x_c2 : list irow := [:: x_row 6 10 5].
Definition x_data (t : list irow) : list prow := match get_df_with_cropped_pos_column t 2 true with Ok d => d | Err _ => nil end.
Definition x_none : @nti_state rat :=
  mkNti (mkMappings (mkMapping nil nil 0) (mkMapping nil nil 0)) nil nil (one11, one11, one11) (mkTen (1, 1, 1)%N nil) one11 nil.
Definition x_qr_table : list (mat rat * (mat rat * mat rat)) :=
  [:: (one11, (one11, one11)); (c_col 2 0, (c_col 2 0, one11)); (c_col 3 0, (c_col 3 0, one11)); (c_col 4 0, (c_col 4 0, one11))].
Definition x_qr := lookup x_qr_table.
Definition x_rt (_ : @nti_state rat) (md : mode) : routines rat :=
  @mkRoutines rat x_qr f_fail f_fail f_fail f_rand f_rand (fun _ => f_fail) (fun _ => f_fail) (fun _ => Err LinAlgError) (f_rand 0).
Definition x_api (v : variant) (k : nat) := seq_api (0 : rat) 1 +%R *%R (fun y z => y - z) f_of f_eps f_one (d_cfg v) 2 (1, 1, 1)%N x_id x_id None true
  x_qr f_rand f_rsvd h_norm 0 h_grew 1 true x_rt f_argpart k.
Definition x_run v k table stream := dynamical_experiment (0 : rat) (fun x y => x - y) (fun _ => tt) (fun _ _ => tt) tt (fun _ => tt) (x_api v k) (grow_3d 2)
  [:: Zpos 6] true (Z.of_nat (length stream)) x_none (x_data table) stream.
Lemma x_contracts : [/\ forall y, f_one y = true -> y = 1, qr_ok x_qr, forall m, randn_ok (f_rand m), inner_ok f_rsvd & forall x md, rt_ok (x_rt x md)].
Proof.
  have Q : qr_ok x_qr by apply: qr_table_ok; vm_compute.
  by split=> //; [move=> y /eqP|exact: f_inner].
Qed.
Lemma x_shape : shape 2 2 x_id.
Proof. by split; vm_compute. Qed.
Lemma x_crop : get_df_with_cropped_pos_column x_table 2 true = Ok (x_data x_table).
Proof. vm_compute. reflexivity. Qed.
(** The rows cropping keeps. *)
Definition x_keep (c : list irow) : list irow := List.map p_row (x_data c).
Lemma x_crops : crops 2 true x_keep.
Proof.
  move=> c u. rewrite /x_keep /x_data. case: c => [|r c].
    exists nil. split=> //. split; [by constructor|]. by split.
  have L1 : Peano.le 1 2 by lia. have NE : r :: c <> nil by [].
  have [out [E [_ H]]] := History_proofs.crop_main (r :: c) 2 true L1 NE. rewrite E.
  have [x [Hx Fx]] := H u. exists x. split=> //. rewrite /rows_of History_main.filter_map_comm. cbv beta. rewrite Fx.
  apply: Tirec_stream.map_fst_combine. rewrite Prelude_proofs.lastn_length History_proofs.zrange_length. lia.
Qed.
Lemma x_items : Z.le 2 (n_items_in (x_keep x_table)).
Proof. vm_compute. discriminate. Qed.
Lemma x_result : exists dyn, x_run VTIRecAInt 1 x_table [:: x_c1; x_c2] = Ok dyn /\ d_hr dyn = [:: q1; q0] /\ d_mrr dyn = [:: q1; q0] /\ d_wji dyn = [:: Qmake Z0 2].
Proof. apply: numbers_ok. vm_compute. reflexivity. Qed.
(** User 5 has taken item 10 twice and takes it again. *)
Definition x_same : list irow := [:: x_row 5 10 1; x_row 5 10 2; x_row 6 20 1].
Lemma x_refused : is_ok (x_run VTIRecAInt 1 x_same nil) = true /\ x_run VTIRecAInt 1 x_same [:: [:: x_row 5 10 3]] = Err ValueError.
Proof. split; vm_compute; reflexivity. Qed.
