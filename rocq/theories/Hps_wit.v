(** Concrete searches for the rank of the SVD. *)
From Coq Require Import ZArith Lia QArith Permutation Sorting.Sorted List.
From Verif Require Import Prelude Prelude_proofs DataPrep_model DataPrep_spec History_model Eval_spec Recommend_model Recommend_spec Psi_model Tirec_model
  Tables_model Stream_model Stream_spec Search_model Tensor_model Matrix_model LinAlg_model Num_model Dynamic_model Dynamic_spec Full_spec Full_model
  Pipe_model Pipe_spec Hps_model Hps_spec.
Set Warnings "-notation-overridden".
From mathcomp Require Import all_ssreflect all_algebra.
From Verif Require Import LinAlg_spec LinAlg_tables LinAlg_wit Upd_spec Num_spec Upd_wit Exact_wit Hooi_wit Num_wit Full_wit Pipe_wit.
Set Implicit Arguments.
Unset Strict Implicit.
Unset Printing Implicit Defensive.
Import GRing.Theory Num.Theory.
Local Open Scope ring_scope.

(** The table of Full_wit on day 0; on day 1 user 1 takes item 20 and on day 2 user 2 item 30.
    With two singular values the score of item 20 for user 1 vanishes. *)
Definition h_data : list trow :=
  [:: p_row4 0 1 10 0 12; p_row4 1 2 10 0 7; p_row4 2 2 20 0 12; p_row4 3 3 30 0 2; p_row4 4 3 40 0 1; p_row4 5 1 20 1 0; p_row4 6 2 30 2 0].
Definition h_tab2 : list (mat rat * (mat rat * list rat * mat rat)) :=
  [:: (mkMat 3 4 [:: 12%:Q; 0; 0; 0; 7%:Q; 12%:Q; 0; 0; 0; 0; 2%:Q; 1],
       (mkMat 3 2 [:: frac 3 5; frac 4 5; frac 4 5; frac (-3) 5; 0; 0], [:: 16%:Q; 9%:Q], mkMat 2 4 [:: frac 4 5; frac 3 5; 0; 0; frac 3 5; frac (-4) 5; 0; 0]))].
Definition h_svds (x : mat rat) (r : nat) : res (mat rat * list rat * mat rat) := if r is 1%N then f_svds x r else trunc_lookup h_tab2 x r.
Lemma h_svds_contract : svds_mat_ok h_svds.
Proof.
  have H : svds_mat_ok (trunc_lookup h_tab2) by apply: f_svds_ok; vm_compute.
  move=> x r t. rewrite /h_svds. case: r => [|[|r]]; [exact: H|exact: f_svds_contract|exact: H].
Qed.
(** A set listed backwards. *)
Definition h_order (l : list config) : list config := List.rev l.
Lemma h_orders l : Permutation (h_order l) l.
Proof. exact/Permutation_sym/Permutation_rev. Qed.
Definition h_search (data : list trow) (cut : Z) (ranks : list Z) :=
  hyperparameters_search_svd (0 : rat) +%R *%R o_rel h_svds f_argpart 1 (p_sort tb_day) h_order data cut q1 ranks.
Lemma h_found : h_search h_data (Zpos 6) [:: Zpos 1; Zpos 2; Zpos 1] = Ok [:: (Zpos 2, q0); (Zpos 1, q1)].
Proof. vm_compute. reflexivity. Qed.
Lemma h_chosen : get_optimal_svd_rank STEAM [:: (Zpos 2, q0); (Zpos 1, q1)] = Ok (Zpos 1).
Proof. vm_compute. reflexivity. Qed.
(** Three users are too few for rank 3; nobody in the last row is known. *)
Lemma h_bad_rank : h_search h_data (Zpos 6) [:: Zpos 1; Zpos 3] = Err ValueError.
Proof. vm_compute. reflexivity. Qed.
Definition h_unknown : list trow := List.firstn 5 h_data ++ [:: p_row4 5 9 20 1 0].
Lemma h_nobody : h_search h_unknown (Zpos 6) [:: Zpos 1] = Err ZeroDivisionError.
Proof. vm_compute. reflexivity. Qed.
(** The experiment after the search. *)
Definition h_run := full_dynamical_experiment (0 : rat) (fun x y => x - y) (fun _ => tt) (fun _ _ => tt) tt (fun _ => tt)
  (svd_api (0 : rat) +%R *%R o_rel h_svds f_argpart 1 (Zpos 1)) grow_2d false entry_2d users_2d (p_sort tb_day) (p_sort snd) h_data (Zpos 6) None (Zpos 2) w_none.
Lemma h_result : exists dyn, h_run = Ok dyn /\ d_hr dyn = [:: q0] /\ d_mrr dyn = [:: q0] /\ d_wji dyn = [::].
Proof. apply: numbers_ok. vm_compute. reflexivity. Qed.
