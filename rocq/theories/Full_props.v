(** Properties C79 and C80: whole experiments with PSI and with retraining. *)
From Coq Require Import ZArith QArith.
From Verif Require Import Prelude DataPrep_model DataPrep_spec Eval_spec Recommend_model Recommend_spec Psi_model Psi_spec Tensor_model Matrix_model Attention_model LinAlg_model Num_model Dynamic_model Dynamic_spec Full_spec Full_model.
Set Warnings "-notation-overridden".
From mathcomp Require Import all_ssreflect all_algebra.
From Verif Require Import LinAlg_spec Upd_spec Num_spec.
From Verif Require LinAlg_tables LinAlg_wit Upd_wit Num_wit Full_num Full_main Full_wit.
Set Implicit Arguments.
Unset Strict Implicit.
Unset Printing Implicit Defensive.
Import GRing.Theory Num.Theory.
Local Open Scope ring_scope.

(** C79.  A PSI experiment runs through exactly when the rank is below the numbers of users and
    items, every chunk has a row to test, every user concerned has [k] items left, and the
    updates take the chunks; otherwise it raises.  A run meeting this can only raise what a
    numerical routine raised. *)
Theorem psi_experiment_outcome :
  forall (R : realFieldType) (of_rel : Z -> R) (qr : mat R -> res (mat R * mat R)) (svd : mat R -> res (mat R * list R * mat R))
         (rsvd : mat R -> nat -> res (mat R * list R * mat R)) (exceeds_eps : R -> bool) (argsort : list R -> list nat)
         (normal : nat -> nat -> mat R) (svds : mat R -> nat -> res (mat R * list R * mat R)) (argpart : nat -> list R -> nat -> list nat),
  qr_ok qr -> svd_ok svd -> truncated_ok rsvd -> argsort_ok (fun x y : R => x <= y) argsort -> randn_ok normal ->
  svds_mat_ok svds -> argpartition_contract (fun x y : R => x <= y) argpart ->
  forall (k : nat) (rank : Z) (cfg : psi_cfg), Peano.le 1 k ->
  forall (V T : Type) (norm : mat R -> V) (div : V -> V -> V) (minus_one : V) (clock : nat -> T)
         (test_users : list Z) (how_many : Z) (st0 : @num_state R) (initial : list irow) (stream : list (list irow)),
  let psi := psi_api 0 1 +%R *%R (fun x y => x - y) of_rel qr svd rsvd exceeds_eps argsort normal svds argpart k rank cfg in
  let n := n_steps how_many (length stream) in
  let possible := trainable rank initial /\ feasible k (psi_fits cfg) (fun c => c) test_users initial stream n in
  match dynamical_experiment 0 (fun x y => x - y) norm div minus_one clock psi grow_2d test_users true how_many st0 initial stream with
  | Ok _ => possible
  | Err e => possible -> (exists x, svds x (Z.to_nat rank) = Err e) \/ routine_raises qr svd rsvd (Z.to_nat rank) e
  end.
Proof. exact: Full_num.psi_outcome. Qed.
Print Assumptions psi_experiment_outcome.

(** C79.  What it reports: the model of step [t] was trained on the initial table and given the
    first [t] chunks; the tested users got the [k] unseen items it scores highest. *)
Theorem psi_experiment_report :
  forall (R : realFieldType) (of_rel : Z -> R) (qr : mat R -> res (mat R * mat R)) (svd : mat R -> res (mat R * list R * mat R))
         (rsvd : mat R -> nat -> res (mat R * list R * mat R)) (exceeds_eps : R -> bool) (argsort : list R -> list nat)
         (normal : nat -> nat -> mat R) (svds : mat R -> nat -> res (mat R * list R * mat R)) (argpart : nat -> list R -> nat -> list nat),
  qr_ok qr -> svd_ok svd -> truncated_ok rsvd -> argsort_ok (fun x y : R => x <= y) argsort -> randn_ok normal ->
  svds_mat_ok svds -> argpartition_contract (fun x y : R => x <= y) argpart ->
  forall (k : nat) (rank : Z) (cfg : psi_cfg), Peano.le 1 k ->
  forall (V T : Type) (norm : mat R -> V) (div : V -> V -> V) (minus_one : V) (clock : nat -> T)
         (test_users : list Z) (how_many : Z) (st0 : @num_state R) (initial : list irow) (stream : list (list irow)),
  let psi := psi_api 0 1 +%R *%R (fun x y => x - y) of_rel qr svd rsvd exceeds_eps argsort normal svds argpart k rank cfg in
  let n := n_steps how_many (length stream) in
  forall dyn, dynamical_experiment 0 (fun x y => x - y) norm div minus_one clock psi grow_2d test_users true how_many st0 initial stream = Ok dyn ->
  exists model : nat -> @num_state R, num_train 0 +%R of_rel svds rank initial = Ok (model 0%N) /\
  (forall t c, Peano.lt t n -> List.nth_error stream t = Some c ->
     num_update 0 1 +%R *%R (fun x y => x - y) of_rel qr svd rsvd exceeds_eps argsort normal cfg (model t) c = Ok (model t.+1) /\
     exists h q, List.nth_error (d_hr dyn) t = Some h /\ List.nth_error (d_mrr dyn) t = Some q /\
       let P := past (fun c => c) initial stream t in
       step_report k (best (fun x y : R => x <= y) (num_rec 0 +%R *%R (model t)) P) P c h q) /\
  length (d_hr dyn) = n /\ length (d_mrr dyn) = n /\ length (d_wji dyn) = Nat.sub n 1 /\
  List.Forall (fun w => Qle (Qmake Z0 1) w /\ Qle w (Qmake (Zpos 1) 1)) (d_wji dyn).
Proof. exact: Full_num.psi_report. Qed.
Print Assumptions psi_experiment_report.

(** Three users and four items, then two chunks: the contracts hold, the run meets the
    conditions and reports a miss and a hit at the second place; with three items to recommend
    the second chunk is refused, user 2 having two left. *)
Example psi_experiment_case :
  [/\ qr_ok Full_wit.f_qr, svd_ok LinAlg_wit.demo_svd, truncated_ok Num_wit.w_rsvd, argsort_ok (fun x y : rat => x <= y) LinAlg_tables.rat_argsort & randn_ok Upd_wit.r_randn] /\
  svds_mat_ok Full_wit.f_svds /\ argpartition_contract (fun x y : rat => x <= y) Full_wit.f_argpart /\
  (exists dyn, Full_wit.f_run 2 Full_wit.f_data [:: Full_wit.f_c1; Full_wit.f_c2] = Ok dyn /\
     d_hr dyn = [:: Full_wit.q0; Full_wit.q1] /\ d_mrr dyn = [:: Full_wit.q0; Full_wit.qhalf] /\ d_wji dyn = [:: Qmake (Zpos 6) 6]) /\
  Full_wit.f_run 3 Full_wit.f_data [:: Full_wit.f_c2] = Err ValueError.
Proof.
  split; [exact: Full_wit.f_contracts|]. split; [exact: Full_wit.f_svds_contract|]. split; [exact: Full_wit.f_argpart_ok|].
  split; [exact: Full_wit.f_result|exact: Full_wit.f_refused].
Qed.

(** C80.  An experiment with retraining runs through under the same conditions, whatever the
    new ids of the chunks. *)
Theorem svd_experiment_outcome :
  forall (R : realFieldType) (of_rel : Z -> R) (svds : mat R -> nat -> res (mat R * list R * mat R)) (argpart : nat -> list R -> nat -> list nat),
  svds_mat_ok svds -> argpartition_contract (fun x y : R => x <= y) argpart ->
  forall (k : nat) (rank : Z), Peano.le 1 k ->
  forall (V T : Type) (norm : mat R -> V) (div : V -> V -> V) (minus_one : V) (clock : nat -> T)
         (test_users : list Z) (how_many : Z) (st0 : @num_state R) (initial : list irow) (stream : list (list irow)),
  let svd := svd_api 0 +%R *%R of_rel svds argpart k rank in
  let n := n_steps how_many (length stream) in
  let possible := trainable rank initial /\ feasible k (fun _ _ => True) (fun c => c) test_users initial stream n in
  match dynamical_experiment 0 (fun x y => x - y) norm div minus_one clock svd grow_2d test_users false how_many st0 initial stream with
  | Ok _ => possible
  | Err e => possible -> exists x, svds x (Z.to_nat rank) = Err e
  end.
Proof. exact: Full_main.svd_outcome. Qed.
Print Assumptions svd_experiment_outcome.

(** C80.  The model of step [t] is the one a fresh training on the initial table and the first
    [t] chunks gives. *)
Theorem svd_experiment_report :
  forall (R : realFieldType) (of_rel : Z -> R) (svds : mat R -> nat -> res (mat R * list R * mat R)) (argpart : nat -> list R -> nat -> list nat),
  svds_mat_ok svds -> argpartition_contract (fun x y : R => x <= y) argpart ->
  forall (k : nat) (rank : Z), Peano.le 1 k ->
  forall (V T : Type) (norm : mat R -> V) (div : V -> V -> V) (minus_one : V) (clock : nat -> T)
         (test_users : list Z) (how_many : Z) (st0 : @num_state R) (initial : list irow) (stream : list (list irow)),
  let svd := svd_api 0 +%R *%R of_rel svds argpart k rank in
  let n := n_steps how_many (length stream) in
  forall dyn, dynamical_experiment 0 (fun x y => x - y) norm div minus_one clock svd grow_2d test_users false how_many st0 initial stream = Ok dyn ->
  exists model : nat -> @num_state R,
  (forall t, Peano.le t n -> num_train 0 +%R of_rel svds rank (past (fun c => c) initial stream t) = Ok (model t)) /\
  (forall t c, Peano.lt t n -> List.nth_error stream t = Some c ->
     exists h q, List.nth_error (d_hr dyn) t = Some h /\ List.nth_error (d_mrr dyn) t = Some q /\
       let P := past (fun c => c) initial stream t in
       step_report k (best (fun x y : R => x <= y) (num_rec 0 +%R *%R (model t)) P) P c h q) /\
  length (d_hr dyn) = n /\ length (d_mrr dyn) = n /\ length (d_wji dyn) = Nat.sub n 1 /\
  List.Forall (fun w => Qle (Qmake Z0 1) w /\ Qle w (Qmake (Zpos 1) 1)) (d_wji dyn).
Proof. exact: Full_main.svd_report. Qed.
Print Assumptions svd_experiment_report.

(** Retraining over two chunks, with a new pair in the second: a miss, then a hit at the second
    place; a rank of three with three users is refused. *)
Example svd_experiment_case :
  svds_mat_ok Full_wit.g_svds /\ argpartition_contract (fun x y : rat => x <= y) Full_wit.f_argpart /\
  (exists dyn, Full_wit.g_run 2 Full_wit.g_data [:: Full_wit.g_c1; Full_wit.g_c2] = Ok dyn /\
     d_hr dyn = [:: Full_wit.q0; Full_wit.q1] /\ d_mrr dyn = [:: Full_wit.q0; Full_wit.qhalf] /\ d_wji dyn = [:: Qmake (Zpos 6) 6]) /\
  Num_wit.is_ok (dynamical_experiment (0 : rat) (fun x y => x - y) (fun _ => tt) (fun _ _ => tt) tt (fun _ => tt)
    (svd_api (0 : rat) +%R *%R Num_wit.o_rel Full_wit.g_svds Full_wit.f_argpart 2 (Zpos 3)) grow_2d [:: Zpos 3] false Z0 Num_wit.w_none
    Full_wit.g_data [:: Full_wit.g_c1; Full_wit.g_c2]) = false.
Proof.
  split; [exact: Full_wit.g_svds_contract|]. split; [exact: Full_wit.f_argpart_ok|].
  split; [exact: Full_wit.g_result|exact: Full_wit.g_refused].
Qed.
