(** Two orders of one log. *)
From Coq Require Import ZArith Lia QArith Permutation Sorting.Sorted List.
From Verif Require Import Prelude Prelude_proofs DataPrep_model DataPrep_spec Recommend_spec Tables_model Stream_model Stream_spec Tensor_model Num_model
  Dynamic_model Dynamic_spec Full_model Pipe_model Pipe_spec Rawlog_spec.
Set Warnings "-notation-overridden".
From mathcomp Require Import all_ssreflect all_algebra.
From Verif Require Import LinAlg_spec LinAlg_tables LinAlg_wit Upd_spec Num_spec Upd_wit Exact_wit Hooi_wit Num_wit Full_wit Pipe_wit.
Set Implicit Arguments.
Unset Strict Implicit.
Unset Printing Implicit Defensive.
Import GRing.Theory Num.Theory.
Local Open Scope ring_scope.

(** Times are whole days, as in the Amazon logs.  On the first day user 1 takes items 10 to 40
    and users 2 to 4 an item each; on the second day user 2 takes item 60 and user 3 item 70. *)
Definition l_row (u j d : nat) : raw := (Z.of_nat u, Z.of_nat j, Z.mul DAY (Z.of_nat d)).
Definition l_first : list raw := [:: l_row 1 10 0; l_row 1 20 0; l_row 1 30 0; l_row 1 40 0; l_row 2 50 0; l_row 3 60 0; l_row 4 70 0].
Definition l_x : raw := l_row 2 60 1.
Definition l_y : raw := l_row 3 70 1.
Definition l_data : list raw := List.app l_first [:: l_x; l_y].
Definition l_data' : list raw := List.app l_first [:: l_y; l_x].
Lemma l_perm : Permutation l_data l_data'.
Proof. apply: Permutation_app_head. exact: perm_swap. Qed.
Lemma l_torn : torn l_data 8.
Proof.
  exists l_x, l_y. split; [by apply: List.in_or_app; right; left|]. split; [by apply: List.in_or_app; right; right; left|].
  split; [by vm_compute|]. split; [by vm_compute|]. split; apply/ssrnat.ltP; by vm_compute.
Qed.
(** The largest singular value is 2, of user 1 and the four items; the rest is a path, with
    singular values below 2. *)
Definition l_top : mat rat * list rat * mat rat :=
  (mkMat 4 1 [:: 1; 0; 0; 0], [:: 2%:Q], mkMat 1 7 [:: frac 1 2; frac 1 2; frac 1 2; frac 1 2; 0; 0; 0]).
Definition l_mat (b c : rat) : mat rat :=
  mkMat 4 7 ([:: 1; 1; 1; 1; 0; 0; 0] ++ [:: 0; 0; 0; 0; 1; b; 0] ++ [:: 0; 0; 0; 0; 0; 1; c] ++ [:: 0; 0; 0; 0; 0; 0; 1]).
Definition l_svds := trunc_lookup [:: (l_mat 1 0, l_top); (l_mat 0 1, l_top); (l_mat 1 1, l_top)].
Lemma l_svds_contract : svds_mat_ok l_svds.
Proof. apply: f_svds_ok. by vm_compute. Qed.
Definition l_run (data : list raw) := full_dynamical_experiment (0 : rat) (fun x y => x - y) (fun _ => tt) (fun _ _ => tt) tt (fun _ => tt)
  (svd_api (0 : rat) +%R *%R o_rel l_svds f_argpart 1 (Zpos 1)) grow_2d false entry_2d users_2d (p_sort tb_day) (p_sort snd)
  (prepare_encoded (p_sort raw_time) data) (Zpos 8) None (Zpos 1) w_none.
Lemma l_results : (exists dyn, l_run l_data = Ok dyn /\ d_hr dyn = [:: q1]) /\ (exists dyn, l_run l_data' = Ok dyn /\ d_hr dyn = [:: q0]).
Proof.
  split.
  - have [dyn [E [H _]]] : exists dyn, l_run l_data = Ok dyn /\ d_hr dyn = [:: q1] /\ d_mrr dyn = [:: q1] /\ d_wji dyn = [::].
      apply: numbers_ok. vm_compute. reflexivity.
    exists dyn. split; [exact: E|exact: H].
  - have [dyn [E [H _]]] : exists dyn, l_run l_data' = Ok dyn /\ d_hr dyn = [:: q0] /\ d_mrr dyn = [:: q0] /\ d_wji dyn = [::].
      apply: numbers_ok. vm_compute. reflexivity.
    exists dyn. split; [exact: E|exact: H].
Qed.
Lemma l_refuted : exists (data data' : list raw) (cut how_many : Z) (k : nat), Permutation data data' /\
  let run data := full_dynamical_experiment (0 : rat) (fun x y => x - y) (fun _ => tt) (fun _ _ => tt) tt (fun _ => tt)
    (svd_api (0 : rat) +%R *%R o_rel l_svds f_argpart k (Zpos 1)) grow_2d false entry_2d users_2d (p_sort tb_day) (p_sort snd)
    (prepare_encoded (p_sort raw_time) data) cut None how_many w_none in
  exists dyn dyn' h h', run data = Ok dyn /\ run data' = Ok dyn' /\ d_hr dyn = [:: h] /\ d_hr dyn' = [:: h'] /\ ~ Qeq h h'.
Proof.
  exists l_data, l_data', (Zpos 8), (Zpos 1), 1%N. split; [exact: l_perm|]. move=> run.
  have [[d1 [E1 H1]] [d2 [E2 H2]]] := l_results. exists d1, d2, q1, q0. split; [exact: E1|]. split; [exact: E2|]. split; [exact: H1|]. split; [exact: H2|].
  vm_compute. discriminate.
Qed.
(** A cut between the two days is not torn. *)
Lemma l_whole : ~ torn l_data 7.
Proof.
  move=> [x [y [I [_ [_ [_ [L1 L2]]]]]]].
  have F : List.forallb (fun x => ~~ ((rows_before l_data (raw_time x) < 7) && (7 < rows_upto l_data (raw_time x))))%N l_data = true by vm_compute.
  have := proj1 (List.forallb_forall _ _) F x I. move/ssrnat.ltP: L1 => ->. by move/ssrnat.ltP: L2 => ->.
Qed.
