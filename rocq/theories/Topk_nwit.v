(** Concrete experiments with lists of different lengths. *)
From Coq Require Import ZArith QArith List.
From Verif Require Import Prelude DataPrep_model Recommend_model Recommend_spec Tensor_model Matrix_model LinAlg_model Num_model Tucker_model Hooi_model Nti_model Dynamic_model Dynamic_spec Full_model Seqx_model Tdx_model Rex_model Topk_spec.
Set Warnings "-notation-overridden".
From mathcomp Require Import all_ssreflect all_algebra.
From Verif Require Import Num_wit Full_wit.
Set Implicit Arguments.
Unset Strict Implicit.
Unset Printing Implicit Defensive.
Import GRing.Theory Num.Theory.
Local Open Scope ring_scope.

Lemma f_same : same_for_all_k f_argpart.
Proof. by []. Qed.
(** SVD and PSI with two lengths. *)
Lemma svd_lists_differ (A : Type) (zero : A) add mul of_rel svds argpart rank k k' :
  only_lists_differ (num_rec zero add mul) argpart k k' (svd_api zero add mul of_rel svds argpart k rank) (svd_api zero add mul of_rel svds argpart k' rank).
Proof. by repeat split. Qed.
Lemma psi_lists_differ (A : Type) (zero one : A) add mul sub of_rel qr svd rsvd eps argsort normal svds argpart rank cfg k k' :
  only_lists_differ (num_rec zero add mul) argpart k k'
    (psi_api zero one add mul sub of_rel qr svd rsvd eps argsort normal svds argpart k rank cfg)
    (psi_api zero one add mul sub of_rel qr svd rsvd eps argsort normal svds argpart k' rank cfg).
Proof. by repeat split. Qed.
Lemma seq_lists_differ (A N : Type) (zero one : A) add mul sub of_val eps is1 cfg L rank a ainv att sb qr rand rsvd tnorm norm0 grew n_iter force rt argpart k k' :
  only_lists_differ (nti_rec zero add mul) argpart k k'
    (@seq_api A N zero one add mul sub of_val eps is1 cfg L rank a ainv att sb qr rand rsvd tnorm norm0 grew n_iter force rt argpart k)
    (@seq_api A N zero one add mul sub of_val eps is1 cfg L rank a ainv att sb qr rand rsvd tnorm norm0 grew n_iter force rt argpart k').
Proof. by repeat split. Qed.
Lemma td_lists_differ (A N : Type) (zero : A) add mul of_val L rank a ainv qr rand rsvd tnorm norm0 grew n_iter force argpart k k' :
  only_lists_differ (nti_rec zero add mul) argpart k k'
    (@td_api A N zero add mul of_val L rank a ainv qr rand rsvd tnorm norm0 grew n_iter force argpart k)
    (@td_api A N zero add mul of_val L rank a ainv qr rand rsvd tnorm norm0 grew n_iter force argpart k').
Proof. by repeat split. Qed.
Lemma f_one : exists dyn, f_run 1 f_data [:: f_c1; f_c2] = Ok dyn /\ d_hr dyn = [:: q0; q0] /\ d_mrr dyn = [:: q0; q0] /\ d_wji dyn = [:: Qmake (Zpos 1) 1].
Proof. apply: numbers_ok. vm_compute. reflexivity. Qed.
Lemma re_lists_differ (A N : Type) (zero : A) add mul of_val L rank a ainv qr rand rsvd tnorm norm0 grew n_iter force argpart k k' :
  only_lists_differ (nti_rec zero add mul) argpart k k'
    (@re_api A N zero add mul of_val L rank a ainv qr rand rsvd tnorm norm0 grew n_iter force argpart k)
    (@re_api A N zero add mul of_val L rank a ainv qr rand rsvd tnorm norm0 grew n_iter force argpart k').
Proof. by repeat split. Qed.
