(** C102: names that change the order of the users. *)
From Coq Require Import ZArith QArith.
From Verif Require Import Prelude DataPrep_model History_model Recommend_spec Tensor_model Matrix_model LinAlg_model Hooi_model Nti_model
  Dynamic_model Tdx_model Tables_model Stream_model Pipe_model Rename_spec Stream_spec.
Set Warnings "-notation-overridden".
From mathcomp Require Import all_ssreflect all_algebra.
From Verif Require Import LinAlg_spec LinAlg_wit Tucker_spec Hooi_spec Num_spec Nti_spec Nti_wit Full_spec Full_wit Seqx_wit Tdx_wit Pipe_wit Rename_wit.
Set Implicit Arguments.
Unset Strict Implicit.
Unset Printing Implicit Defensive.
Import GRing.Theory Num.Theory.
Local Open Scope ring_scope.

(** C102: names in another order can change the hit rates reported for TDRec. *)
Theorem names_in_any_order_refuted :
  exists (f : Z -> Z) (qr : mat rat -> res (mat rat * mat rat)) rand rsvd (argpart : nat -> list rat -> nat -> list nat)
    (of_val : Z -> rat) (tnorm : ten rat -> rat) norm0 grew (st0 : @nti_state rat) (tu : list Z) (table : list irow) (stream : list (list irow)),
  [/\ one_to_one f,
      [/\ qr_ok qr, forall m, randn_ok (rand m) & inner_ok rsvd] /\ argpartition_contract (fun x y : rat => x <= y) argpart
    & let experiment tu table stream :=
        do d <- entry_3d 2 table;
        dynamical_experiment (0 : rat) (fun x y => x - y) (fun _ => tt) (fun _ _ => tt) tt (fun _ => tt)
          (td_api (0 : rat) +%R *%R of_val 2 (1, 1, 1)%N (eye_ 1 2 2) (eye_ 1 2 2) qr rand rsvd tnorm norm0 grew 1 true argpart 1)
          (grow_3d 2) tu false 2 st0 d stream in
      exists dyn dyn',
      [/\ experiment tu table stream = Ok dyn,
          experiment (List.map f tu) (List.map (rn f id) table) (List.map (List.map (rn f id)) stream) = Ok dyn'
        & d_hr dyn <> d_hr dyn']].
Proof. exact: n_main. Qed.
Print Assumptions names_in_any_order_refuted.

(** C102: and the users whose recommendations are watched for stability: with more than 50
    equally active ones, the names decide who is left out. *)
Theorem stability_users_ignore_names_refuted :
  exists f sort (users : list Z) (left : list (Z * Z)) (u : Z),
  [/\ one_to_one f, sorts_by snd sort, by_key_only f sort,
      ~ List.In u (get_users_stability sort users left 1)
    & List.In (f u) (get_users_stability sort (List.map f users) (List.map (fun p => (f (fst p), snd p)) left) 1)].
Proof. exact: s_main. Qed.
Print Assumptions stability_users_ignore_names_refuted.

(** SVD from a file with all users in reverse order and new item names: the hit rates and
    reciprocal ranks are those of Pipe_wit.p_result; the stable sorts look at the keys only. *)
Example renamed_file :
  (exists dyn, p_run 2 (n_all p_shared) (Zpos 3) = Ok dyn /\ d_hr dyn = [:: q0; q1] /\ d_mrr dyn = [:: q0; qhalf]) /\
  (forall f, by_key_only f s_counts) /\
  (forall f g l, p_sort tb_day (List.map (rn_t f g) l) = List.map (rn_t f g) (p_sort tb_day l)).
Proof. split; [exact: n_svd|split; [exact: s_counts_key|exact: s_days_key]]. Qed.

(** TDRec with names that keep the order of the users: the series of Tdx_wit.t_result. *)
Example renamed_tdrec : keeps_order n_times3 /\ one_to_one Z.opp /\
  exists dyn, t_run 2 1 [:: Zpos 19] (n_thrice x_table) (List.map n_thrice t_stream) = Ok dyn /\
  d_hr dyn = [:: q1; q0] /\ d_mrr dyn = [:: q1; q0] /\ d_wji dyn = [:: Qmake Z0 2].
Proof. split; [exact: times3_inc|split; [exact: opp_one|exact: n_td]]. Qed.
