(** Retraining: no other routine than the truncated SVD can be blamed. *)
From Coq Require Import ZArith QArith.
From Verif Require Import Prelude DataPrep_model Recommend_model Recommend_spec Psi_model Tensor_model Matrix_model Attention_model LinAlg_model Num_model Dynamic_model Dynamic_spec Full_spec Full_model.
Set Warnings "-notation-overridden".
From mathcomp Require Import all_ssreflect all_algebra.
From Verif Require Import LinAlg_spec Upd_spec Num_spec.
From Verif Require Full_num.
Set Implicit Arguments.
Unset Strict Implicit.
Unset Printing Implicit Defensive.
Import GRing.Theory Num.Theory.
Local Open Scope ring_scope.

Section Main.
Variable R : realFieldType.
Variable of_rel : Z -> R.
Variable svds : mat R -> nat -> res (mat R * list R * mat R).
Variable argpart : nat -> list R -> nat -> list nat.
Hypothesis SO : svds_mat_ok svds.
Hypothesis AP : argpartition_contract (fun x y : R => x <= y) argpart.
Variables (k : nat) (rank : Z).
Hypothesis k1 : Peano.le 1 k.
Context {V T : Type}.
Variables (norm : mat R -> V) (div : V -> V -> V) (minus_one : V) (clock : nat -> T).
Variables (test_users : list Z) (hm : Z) (st0 : @num_state R) (initial : list irow) (stream : list (list irow)).

Lemma svd_outcome :
  let possible := trainable rank initial /\ feasible k (fun _ _ => True) (fun c => c) test_users initial stream (n_steps hm (length stream)) in
  match dynamical_experiment 0 (fun x y => x - y) norm div minus_one clock (svd_api 0 +%R *%R of_rel svds argpart k rank) grow_2d test_users false hm st0 initial stream with
  | Ok _ => possible
  | Err e => possible -> exists x, svds x (Z.to_nat rank) = Err e
  end.
Proof.
  pose o : mat R := mkMat 0 0 [::].
  have := Full_num.svd_outcome of_rel (fun _ => Ok (o, o)) (fun _ => Ok (o, [::], o)) (fun _ _ => Ok (o, [::], o)) SO AP rank k1 norm div minus_one clock test_users hm st0 initial stream.
  case: (dynamical_experiment _ _ _ _ _ _ _ _ _ _ _ _ _ _) => // e H possible HP. case: (H HP) => //. by case=> [[]|[[]|[]]].
Qed.
Lemma svd_report dyn :
  dynamical_experiment 0 (fun x y => x - y) norm div minus_one clock (svd_api 0 +%R *%R of_rel svds argpart k rank) grow_2d test_users false hm st0 initial stream = Ok dyn ->
  exists model : nat -> @num_state R,
  (forall t, Peano.le t (n_steps hm (length stream)) -> num_train 0 +%R of_rel svds rank (past (fun c => c) initial stream t) = Ok (model t)) /\
  (forall t c, Peano.lt t (n_steps hm (length stream)) -> List.nth_error stream t = Some c ->
     exists h q, List.nth_error (d_hr dyn) t = Some h /\ List.nth_error (d_mrr dyn) t = Some q /\
       let P := past (fun c => c) initial stream t in
       step_report k (best (fun x y : R => x <= y) (num_rec 0 +%R *%R (model t)) P) P c h q) /\
  length (d_hr dyn) = n_steps hm (length stream) /\ length (d_mrr dyn) = n_steps hm (length stream) /\
  length (d_wji dyn) = Nat.sub (n_steps hm (length stream)) 1 /\
  List.Forall (fun w => Qle (Qmake Z0 1) w /\ Qle w (Qmake (Zpos 1) 1)) (d_wji dyn).
Proof.
  pose o : mat R := mkMat 0 0 [::].
  exact: (Full_num.svd_report (fun _ => Ok (o, o)) (fun _ => Ok (o, [::], o)) (fun _ _ => Ok (o, [::], o)) SO AP k1).
Qed.
End Main.
