(** C102: TDRec on a table and on the same table with the users renamed. *)
From Coq Require Import ZArith QArith Lia.
From Verif Require Import Prelude DataPrep_model History_model Recommend_spec Tensor_model Matrix_model LinAlg_model Hooi_model Nti_model
  Dynamic_model Full_model Tdx_model Tables_model Stream_model Pipe_model Rename_spec Stream_spec.
From Verif Require Retrain_proofs Rename_main.
Set Warnings "-notation-overridden".
From mathcomp Require Import all_ssreflect all_algebra.
From Verif Require Import LinAlg_spec LinAlg_wit Tucker_spec Hooi_spec Hooi_wit Num_spec Nti_spec Nti_wit Full_spec Full_wit Seqx_wit Tdx_wit Pipe_wit.
Set Implicit Arguments.
Unset Strict Implicit.
Unset Printing Implicit Defensive.
Import GRing.Theory Num.Theory.
Local Open Scope ring_scope.

Definition n_back : list irow -> list irow := List.map (rn Z.opp id).
Lemma opp_one : one_to_one Z.opp.
Proof. move=> x y H. lia. Qed.
Lemma n_run : exists dyn dyn',
  [/\ t_run 2 1 [:: Zpos 6] x_table t_stream = Ok dyn,
      t_run 2 1 [:: Zneg 6] (n_back x_table) (List.map n_back t_stream) = Ok dyn'
    & d_hr dyn = [:: q1; q0] /\ d_hr dyn' = [:: q1; q1]].
Proof.
  have [dyn [E [H _]]] := t_result.
  have [dyn' [E' [H' _]]] : exists dyn, t_run 2 1 [:: Zneg 6] (n_back x_table) (List.map n_back t_stream) = Ok dyn /\
    d_hr dyn = [:: q1; q1] /\ d_mrr dyn = [:: q1; q1] /\ d_wji dyn = [:: Qmake Z0 2].
    apply: numbers_ok. vm_compute. reflexivity.
  exists dyn, dyn'. split; [exact: E|exact: E'|split; [exact: H|exact: H']].
Qed.
Lemma n_main :
  exists (f : Z -> Z) (qr : mat rat -> res (mat rat * mat rat)) rand rsvd (argpart : nat -> list rat -> nat -> list nat)
    (of_val : Z -> rat) (tnorm : ten rat -> rat) norm0 grew (st0 : @nti_state rat) (tu : list Z) (table : list irow) (stream : list (list irow)),
  [/\ one_to_one f,
      [/\ qr_ok qr, forall m, randn_ok (rand m) & inner_ok rsvd] /\ argpartition_contract (fun x y : rat => x <= y) argpart
    & let experiment tu table stream :=
        do d <- entry_3d 2 table;
        dynamical_experiment (0 : rat) (fun x y => x - y) (fun _ => tt) (fun _ _ => tt) tt (fun _ => tt)
          (td_api (0 : rat) +%R *%R of_val 2 (1, 1, 1)%N (eye_ 1 2 2) (eye_ 1 2 2) qr rand rsvd tnorm norm0 grew 1 true argpart 1)
          (grow_3d 2) tu false 2 st0 d stream in
      exists dyn dyn',
      [/\ experiment tu table stream = Ok dyn,
          experiment (List.map f tu) (List.map (rn f id) table) (List.map (List.map (rn f id)) stream) = Ok dyn'
        & d_hr dyn <> d_hr dyn']].
Proof.
  exists Z.opp, x_qr, f_rand, f_rsvd, f_argpart, Nti_wit.f_of, h_norm, 0, h_grew, x_none, [:: Zpos 6], x_table, t_stream.
  split; [exact: opp_one|split; [exact: t_contracts|exact: f_argpart_ok]|].
  have C1 : entry_3d 2 x_table = Ok (t_data 2 x_table) by apply: t_crop; vm_compute.
  have C2 : entry_3d 2 (n_back x_table) = Ok (t_data 2 (n_back x_table)) by apply: t_crop; vm_compute.
  have [dyn [dyn' [E1 E2 [H1 H2]]]] := n_run.
  cbv zeta. exists dyn, dyn'. split.
  - rewrite C1. exact: E1.
  - rewrite [entry_3d 2 (List.map _ _)]C2. exact: E2.
  - rewrite H1 H2. discriminate.
Qed.

(** Runs with new names, for the positive side. *)
Definition n_times3 (x : Z) : Z := Z.add (Z.mul 3 x) 1.
Lemma times3_inc : keeps_order n_times3.
Proof. move=> x y. rewrite /n_times3. lia. Qed.
Definition n_thrice : list irow -> list irow := List.map (rn n_times3 Z.opp).
Lemma n_td : exists dyn, t_run 2 1 [:: Zpos 19] (n_thrice x_table) (List.map n_thrice t_stream) = Ok dyn /\
  d_hr dyn = [:: q1; q0] /\ d_mrr dyn = [:: q1; q0] /\ d_wji dyn = [:: Qmake Z0 2].
Proof. apply: numbers_ok. vm_compute. reflexivity. Qed.
Definition n_all (data : list trow) := List.map (rn_t Z.opp n_times3) data.
Lemma n_svd : exists dyn, p_run 2 (n_all p_shared) (Zpos 3) = Ok dyn /\ d_hr dyn = [:: q0; q1] /\ d_mrr dyn = [:: q0; qhalf].
Proof.
  have [dyn [E [H1 [H2 _]]]] : exists dyn, p_run 2 (n_all p_shared) (Zpos 3) = Ok dyn /\ d_hr dyn = [:: q0; q1] /\ d_mrr dyn = [:: q0; qhalf] /\ d_wji dyn = [:: Qmake (Zpos 6) 6].
    apply: numbers_ok. vm_compute. reflexivity.
  exists dyn. split; [exact: E|split; [exact: H1|exact: H2]].
Qed.

(** The users of the stability test: 51 of them, all with one day. *)
Definition s_counts : list (Z * Z) -> list (Z * Z) := p_sort snd.
Lemma s_counts_key f : by_key_only f s_counts.
Proof.
  move=> l. rewrite /s_counts /p_sort Retrain_proofs.sort_stable_map. congr List.map.
Qed.
Lemma s_days_key f g l : p_sort tb_day (List.map (rn_t f g) l) = List.map (rn_t f g) (p_sort tb_day l).
Proof. by rewrite /p_sort Retrain_proofs.sort_stable_map. Qed.
Definition s_users : list Z := zrange 51.
Definition s_left (f : Z -> Z) : list (Z * Z) := List.map (fun u => (f u, Zpos 1)) s_users.
Lemma s_main : exists f sort (users : list Z) (left : list (Z * Z)) (u : Z),
  [/\ one_to_one f, sorts_by snd sort, by_key_only f sort,
      ~ List.In u (get_users_stability sort users left 1)
    & List.In (f u) (get_users_stability sort (List.map f users) (List.map (fun p => (f (fst p), snd p)) left) 1)].
Proof.
  exists Z.opp, s_counts, s_users, (s_left id), Z0. split.
  - exact: opp_one.
  - exact: p_sorts.
  - exact: s_counts_key.
  - move=> H. have E : memZ Z0 (get_users_stability s_counts s_users (s_left id) 1) = false by (vm_compute; reflexivity).
    have {}H := proj2 (Prelude_proofs.memZ_spec _ _) H. rewrite H in E. discriminate.
  - have E : memZ (Z.opp Z0) (get_users_stability s_counts (List.map Z.opp s_users) (List.map (fun p => (Z.opp (fst p), snd p)) (s_left id)) 1) = true
      by (vm_compute; reflexivity).
    exact (proj1 (Prelude_proofs.memZ_spec _ _) E).
Qed.
