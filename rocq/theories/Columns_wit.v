(** C103: runs with other timestamps and relevances. *)
From Coq Require Import ZArith QArith Lia.
From Verif Require Import Prelude DataPrep_model History_model Recommend_spec Psi_model Tirec_model Tensor_model Matrix_model LinAlg_model Num_model Hooi_model Nti_model
  Dynamic_model Full_model Tdx_model Tables_model Stream_model Pipe_model Columns_spec.
From Verif Require Retrain_proofs.
Set Warnings "-notation-overridden".
From mathcomp Require Import all_ssreflect all_algebra.
From Verif Require Import LinAlg_spec LinAlg_tables LinAlg_wit Upd_spec Upd_wit Tucker_spec Hooi_spec Hooi_wit Num_spec Num_wit Nti_spec Nti_wit Full_spec Full_wit Seqx_wit Tdx_wit Pipe_wit.
Set Implicit Arguments.
Unset Strict Implicit.
Unset Printing Implicit Defensive.
Import GRing.Theory Num.Theory.
Local Open Scope ring_scope.

(** User 5 has item 10 before item 20; the rows are not in this order. *)
Definition c_table : list irow := [:: x_row 5 20 2; x_row 5 10 1; x_row 6 30 1].
Definition c_flat (_ : irow) : Z := Z0.
Definition c_times (t : irow -> Z) : list irow -> list irow := List.map (retime t).

Lemma c_run : exists dyn dyn',
  [/\ t_run 2 1 [:: Zpos 6] c_table t_stream = Ok dyn,
      t_run 2 1 [:: Zpos 6] (c_times c_flat c_table) (List.map (c_times c_flat) t_stream) = Ok dyn'
    & d_hr dyn = [:: q1; q0] /\ d_hr dyn' = [:: q0; q0]].
Proof.
  have [dyn [E [H _]]] : exists dyn, t_run 2 1 [:: Zpos 6] c_table t_stream = Ok dyn /\
    d_hr dyn = [:: q1; q0] /\ d_mrr dyn = [:: q1; q0] /\ d_wji dyn = [:: Qmake Z0 2].
    apply: numbers_ok. vm_compute. reflexivity.
  have [dyn' [E' [H' _]]] : exists dyn, t_run 2 1 [:: Zpos 6] (c_times c_flat c_table) (List.map (c_times c_flat) t_stream) = Ok dyn /\
    d_hr dyn = [:: q0; q0] /\ d_mrr dyn = [:: q0; q0] /\ d_wji dyn = [:: Qmake Z0 2].
    apply: numbers_ok. vm_compute. reflexivity.
  exists dyn, dyn'. split; [exact: E|exact: E'|split; [exact: H|exact: H']].
Qed.

Lemma c_main :
  exists (t : irow -> Z) (qr : mat rat -> res (mat rat * mat rat)) rand rsvd (argpart : nat -> list rat -> nat -> list nat)
    (of_val : Z -> rat) (tnorm : ten rat -> rat) norm0 grew (st0 : @nti_state rat) (tu : list Z) (table : list irow) (stream : list (list irow)),
  [/\ forall r r', Z.le (r_ts r) (r_ts r') -> Z.le (t r) (t r'),
      [/\ qr_ok qr, forall m, randn_ok (rand m) & inner_ok rsvd] /\ argpartition_contract (fun x y : rat => x <= y) argpart
    & let experiment table stream :=
        do d <- entry_3d 2 table;
        dynamical_experiment (0 : rat) (fun x y => x - y) (fun _ => tt) (fun _ _ => tt) tt (fun _ => tt)
          (td_api (0 : rat) +%R *%R of_val 2 (1, 1, 1)%N (eye_ 1 2 2) (eye_ 1 2 2) qr rand rsvd tnorm norm0 grew 1 true argpart 1)
          (grow_3d 2) tu false 2 st0 d stream in
      exists dyn dyn',
      [/\ experiment table stream = Ok dyn,
          experiment (List.map (retime t) table) (List.map (List.map (retime t)) stream) = Ok dyn'
        & d_hr dyn <> d_hr dyn']].
Proof.
  exists c_flat, x_qr, f_rand, f_rsvd, f_argpart, Nti_wit.f_of, h_norm, 0, h_grew, x_none, [:: Zpos 6], c_table, t_stream.
  split; [move=> r r' _; exact: Z.le_refl|split; [exact: t_contracts|exact: f_argpart_ok]|].
  have C1 : entry_3d 2 c_table = Ok (t_data 2 c_table) by apply: t_crop; vm_compute.
  have C2 : entry_3d 2 (c_times c_flat c_table) = Ok (t_data 2 (c_times c_flat c_table)) by apply: t_crop; vm_compute.
  have [dyn [dyn' [E1 E2 [H1 H2]]]] := c_run.
  cbv zeta. exists dyn, dyn'. split.
  - rewrite C1. exact: E1.
  - rewrite [entry_3d 2 (List.map _ _)]C2. exact: E2.
  - rewrite H1 H2. discriminate.
Qed.

(** Two users with an item each: PSI adds the relevance of the row that comes in. *)
Definition c_one (v : rat) : mat rat := mkMat 1 1 [:: v].
Definition c_col (v : rat) : mat rat := mkMat 2 1 [:: v; 0].
Definition c_row (v : rat) : mat rat := mkMat 1 2 [:: v; 0].
Definition c_svds := trunc_lookup [:: (mkMat 2 2 [:: 2%:Q; 0; 0; 1], (c_col 1, [:: 2%:Q], c_row 1))].
Definition c_qr := lookup [:: (c_col 3%:Q, (c_col 1, c_one 3%:Q)); (c_col 5%:Q, (c_col 1, c_one 5%:Q)); (c_col 2%:Q, (c_col 1, c_one 2%:Q))].
Lemma c_contracts : [/\ qr_ok c_qr, svd_ok demo_svd, truncated_ok w_rsvd, argsort_ok (fun x y : rat => x <= y) rat_argsort & svds_mat_ok c_svds].
Proof.
  have [_ [W2 _] [W3 _] W4 _] := w_contracts. split; [|exact: W2|exact: W3|exact: W4|].
  - apply: qr_table_ok. vm_compute. reflexivity.
  - apply: f_svds_ok. vm_compute. reflexivity.
Qed.
Definition c_start := num_train (0 : rat) +%R o_rel c_svds (Zpos 1) [:: mkRow 1 10 1 2; mkRow 2 20 1 1].
Definition c_update x data := num_update (0 : rat) 1 +%R *%R (fun x y => x - y) o_rel c_qr demo_svd w_rsvd w_eps rat_argsort r_randn f_cfg x data.
Definition c_psi (v : Z) := do x <- c_start; do y <- c_update x [:: mkRow 1 10 2 v]; Ok (nm_f y).
Lemma c_psi_run : c_psi 1 = Ok (c_col 1, SMat (c_one 3%:Q), c_row 1) /\ c_psi 3 = Ok (c_col 1, SMat (c_one 5%:Q), c_row 1).
Proof. split; vm_compute; reflexivity. Qed.

Lemma c_weights :
  exists (qr : mat rat -> res (mat rat * mat rat)) svd rsvd eps argsort normal svds (of_rel : Z -> rat) cfg initial chunk (t w : irow -> Z),
  [/\ qr_ok qr, svd_ok svd, truncated_ok rsvd, argsort_ok (fun x y : rat => x <= y) argsort & svds_mat_ok svds] /\
  exists x y y' u s s' v,
  [/\ num_train (0 : rat) +%R of_rel svds (Zpos 1) initial = Ok x,
      num_update (0 : rat) 1 +%R *%R (fun x y => x - y) of_rel qr svd rsvd eps argsort normal cfg x chunk = Ok y,
      num_update (0 : rat) 1 +%R *%R (fun x y => x - y) of_rel qr svd rsvd eps argsort normal cfg x (List.map (reweigh t w) chunk) = Ok y',
      nm_f y = (u, SMat s, v) /\ nm_f y' = (u, SMat s', v) & s <> s'].
Proof.
  exists c_qr, demo_svd, w_rsvd, w_eps, rat_argsort, r_randn, c_svds, o_rel, f_cfg, [:: mkRow 1 10 1 2; mkRow 2 20 1 1], [:: mkRow 1 10 2 1], r_ts, (fun=> Zpos 3).
  split; [exact: c_contracts|].
  have [H1 H2] := c_psi_run. move: H1 H2. rewrite /c_psi /c_start.
  case E0 : (num_train _ _ _ _ _ _) => [x|e]; cbn [bind]; [|discriminate].
  rewrite /c_update. case E1 : (num_update _ _ _ _ _ _ _ _ _ _ _ _ _ _ _) => [y|e]; cbn [bind]; [|discriminate].
  case E2 : (num_update _ _ _ _ _ _ _ _ _ _ _ _ _ _ _) => [y'|e]; cbn [bind]; [|discriminate].
  move=> F1 F2. case: F1 => F1. case: F2 => F2.
  exists x, y, y', (c_col 1), (c_one 3%:Q), (c_one 5%:Q), (c_row 1).
  split; [reflexivity|exact: E1|exact: E2|split; [exact: F1|exact: F2]|].
  move=> K. have : (fun m : mat rat => mget 0 m 0 0) (c_one 3%:Q) = (fun m : mat rat => mget 0 m 0 0) (c_one 5%:Q) by rewrite K.
  move/eqP => B. have C : ((fun m : mat rat => mget 0 m 0 0) (c_one 3%:Q) == (fun m : mat rat => mget 0 m 0 0) (c_one 5%:Q)) = false by (vm_compute; reflexivity).
  rewrite B in C. discriminate.
Qed.

(** The positive side: times in another unit and relevances seven times as large. *)
Definition c_unit (r : irow) : Z := Z.add (Z.mul 86400 (r_ts r)) (r_user r).
Definition c_seven (r : irow) : Z := Z.mul 7 (r_rel r).
Lemma c_unit_ok : same_order c_unit.
Proof. move=> r r' E. rewrite /c_unit E. lia. Qed.
Lemma c_td : exists dyn, t_run 2 1 [:: Zpos 6] (c_times c_unit c_table) (List.map (c_times c_unit) t_stream) = Ok dyn /\
  d_hr dyn = [:: q1; q0] /\ d_mrr dyn = [:: q1; q0] /\ d_wji dyn = [:: Qmake Z0 2].
Proof. apply: numbers_ok. vm_compute. reflexivity. Qed.
Lemma c_seq : exists dyn, x_run VTIRecAInt 1 x_table (List.map (List.map (reweigh c_unit c_seven)) [:: x_c1; x_c2]) = Ok dyn /\
  d_hr dyn = [:: q1; q0] /\ d_mrr dyn = [:: q1; q0] /\ d_wji dyn = [:: Qmake Z0 2].
Proof. apply: numbers_ok. vm_compute. reflexivity. Qed.
Lemma c_svd : exists dyn, p_run 2 (List.map (retime_t c_flat) p_shared) (Zpos 3) = Ok dyn /\ d_hr dyn = [:: q0; q1] /\ d_mrr dyn = [:: q0; qhalf] /\ d_wji dyn = [:: Qmake (Zpos 6) 6].
Proof. apply: numbers_ok. vm_compute. reflexivity. Qed.
Lemma c_days t l : p_sort tb_day (List.map (retime_t t) l) = List.map (retime_t t) (p_sort tb_day l).
Proof. by rewrite /p_sort Retrain_proofs.sort_stable_map. Qed.
