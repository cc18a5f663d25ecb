(** C103: order of the timestamps, and relevances. *)
From Coq Require Import ZArith QArith Lia.
From Verif Require Import Prelude DataPrep_model History_model Recommend_spec Psi_model Tirec_model Tensor_model Matrix_model LinAlg_model Num_model Hooi_model Nti_model
  Dynamic_model Full_model Tdx_model Tables_model Stream_model Pipe_model Columns_spec.
Set Warnings "-notation-overridden".
From mathcomp Require Import all_ssreflect all_algebra.
From Verif Require Import LinAlg_spec LinAlg_tables LinAlg_wit Upd_spec Upd_wit Tucker_spec Hooi_spec Hooi_wit Num_spec Num_wit Nti_spec Nti_wit Full_spec Full_wit Seqx_wit Tdx_wit Pipe_wit Columns_wit.
Set Implicit Arguments.
Unset Strict Implicit.
Unset Printing Implicit Defensive.
Import GRing.Theory Num.Theory.
Local Open Scope ring_scope.

(** C103: times that only keep later rows not earlier, so that ties arise, can change the hit
    rates reported for TDRec. *)
Theorem times_may_tie_refuted :
  exists (t : irow -> Z) (qr : mat rat -> res (mat rat * mat rat)) rand rsvd (argpart : nat -> list rat -> nat -> list nat)
    (of_val : Z -> rat) (tnorm : ten rat -> rat) norm0 grew (st0 : @nti_state rat) (tu : list Z) (table : list irow) (stream : list (list irow)),
  [/\ forall r r', Z.le (r_ts r) (r_ts r') -> Z.le (t r) (t r'),
      [/\ qr_ok qr, forall m, randn_ok (rand m) & inner_ok rsvd] /\ argpartition_contract (fun x y : rat => x <= y) argpart
    & let experiment table stream :=
        do d <- entry_3d 2 table;
        dynamical_experiment (0 : rat) (fun x y => x - y) (fun _ => tt) (fun _ _ => tt) tt (fun _ => tt)
          (td_api (0 : rat) +%R *%R of_val 2 (1, 1, 1)%N (eye_ 1 2 2) (eye_ 1 2 2) qr rand rsvd tnorm norm0 grew 1 true argpart 1)
          (grow_3d 2) tu false 2 st0 d stream in
      exists dyn dyn',
      [/\ experiment table stream = Ok dyn,
          experiment (List.map (retime t) table) (List.map (List.map (retime t)) stream) = Ok dyn'
        & d_hr dyn <> d_hr dyn']].
Proof. exact: c_main. Qed.
Print Assumptions times_may_tie_refuted.

(** C103: PSI does look at the relevances of the rows it is updated with. *)
Theorem relevances_unused_by_psi_refuted :
  exists (qr : mat rat -> res (mat rat * mat rat)) svd rsvd eps argsort normal svds (of_rel : Z -> rat) cfg initial chunk (t w : irow -> Z),
  [/\ qr_ok qr, svd_ok svd, truncated_ok rsvd, argsort_ok (fun x y : rat => x <= y) argsort & svds_mat_ok svds] /\
  exists x y y' u s s' v,
  [/\ num_train (0 : rat) +%R of_rel svds (Zpos 1) initial = Ok x,
      num_update (0 : rat) 1 +%R *%R (fun x y => x - y) of_rel qr svd rsvd eps argsort normal cfg x chunk = Ok y,
      num_update (0 : rat) 1 +%R *%R (fun x y => x - y) of_rel qr svd rsvd eps argsort normal cfg x (List.map (reweigh t w) chunk) = Ok y',
      nm_f y = (u, SMat s, v) /\ nm_f y' = (u, SMat s', v) & s <> s'].
Proof. exact: c_weights. Qed.
Print Assumptions relevances_unused_by_psi_refuted.

(** TDRec on a table with times in another unit; TIRecA on a stream with other times and seven
    times the relevance: the series of Tdx_wit.t_result and Seqx_wit.x_result. *)
Example columns_sequential : same_order c_unit /\
  (exists dyn, t_run 2 1 [:: Zpos 6] (c_times c_unit c_table) (List.map (c_times c_unit) t_stream) = Ok dyn /\
   d_hr dyn = [:: q1; q0] /\ d_mrr dyn = [:: q1; q0] /\ d_wji dyn = [:: Qmake Z0 2]) /\
  (exists dyn, x_run VTIRecAInt 1 x_table (List.map (List.map (reweigh c_unit c_seven)) [:: x_c1; x_c2]) = Ok dyn /\
   d_hr dyn = [:: q1; q0] /\ d_mrr dyn = [:: q1; q0] /\ d_wji dyn = [:: Qmake Z0 2]).
Proof. split; [exact: c_unit_ok|split; [exact: c_td|exact: c_seq]]. Qed.

(** SVD from a file whose times are all 0: the series of Pipe_wit.p_result; the stable sort by
    day meets the hypothesis. *)
Example columns_svd :
  (exists dyn, p_run 2 (List.map (retime_t c_flat) p_shared) (Zpos 3) = Ok dyn /\ d_hr dyn = [:: q0; q1] /\ d_mrr dyn = [:: q0; qhalf] /\
   d_wji dyn = [:: Qmake (Zpos 6) 6]) /\
  (forall t l, p_sort tb_day (List.map (retime_t t) l) = List.map (retime_t t) (p_sort tb_day l)).
Proof. split; [exact: c_svd|exact: c_days]. Qed.
