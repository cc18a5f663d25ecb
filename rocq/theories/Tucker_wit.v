(** Witnesses for the Tucker theorems: concrete rational runs. *)
From Verif Require Import Prelude Tensor_model Tensor_spec Matrix_model Attention_model LinAlg_model.
Set Warnings "-notation-overridden".
From mathcomp Require Import all_ssreflect all_algebra.
From Verif Require Import LinAlg_spec LinAlg_bridge LinAlg_tables Tucker_model Tucker_spec Tucker_bridge Tucker_main.
Set Implicit Arguments.
Unset Strict Implicit.
Unset Printing Implicit Defensive.
Import GRing.Theory.
Local Open Scope ring_scope.

(** One user, two items, two positions, ranks 1: the tensor 3 on item 0 along (3/5, 4/5). *)
Definition wit_u : mat rat := mkMat 1 1 [:: 1].
Definition wit_v : mat rat := mkMat 2 1 [:: 1; 0].
Definition wit_w : mat rat := mkMat 2 1 [:: frac 3 5; frac 4 5].
Definition wit_core : ten rat := mkTen (1%N, 1%N, 1%N) [:: 3%:Q].
Definition wit_one (x : rat) : bool := x == 1.
Definition wit_inds : list cell := [:: (0%N, 1%N, 0%N); (0%N, 1%N, 1%N)].

(** Attention: unit lower triangular. *)
Definition wit_att : mat rat := mkMat 2 2 [:: 1; 0; frac 25 36; 1].
(** New data: 3 on item 1 along (3/5, 4/5) after the attention. *)
Definition wit_vals : list rat := [:: frac 2 15; frac 12 5].
(** New data without attention: 4 on item 1 along (3/5, 4/5). *)
Definition demo_vals : list rat := [:: frac 12 5; frac 16 5].

Definition wit_table : list (mat rat * (mat rat * mat rat)) :=
  [:: (mkMat 1 1 [:: 3%:Q], (mkMat 1 1 [:: 1], mkMat 1 1 [:: 3%:Q]));
      (mkMat 1 1 [:: frac 9 5], (mkMat 1 1 [:: 1], mkMat 1 1 [:: frac 9 5]));
      (mkMat 2 1 [:: 3%:Q; 4%:Q], (mkMat 2 1 [:: frac 3 5; frac 4 5], mkMat 1 1 [:: 5%:Q]));
      (mkMat 2 1 [:: 3%:Q; 0], (mkMat 2 1 [:: 1; 0], mkMat 1 1 [:: 3%:Q]));
      (mkMat 2 1 [:: frac 9 5; frac 12 5], (mkMat 2 1 [:: frac 3 5; frac 4 5], mkMat 1 1 [:: 3%:Q]));
      (mkMat 2 1 [:: frac 63 25; frac 84 25], (mkMat 2 1 [:: frac 3 5; frac 4 5], mkMat 1 1 [:: frac 21 5]))].
Definition wit_tqr : mat rat -> res (mat rat * mat rat) := lookup wit_table.
Lemma wit_tqr_ok : qr_ok wit_tqr.
Proof. by apply: qr_table_ok; vm_compute. Qed.
Lemma wit_one_ok : forall v, wit_one v = true -> v = 1.
Proof. by move=> v /eqP. Qed.

(** The tensors after the update: items (a, b) along (3/5, 4/5). *)
Definition wit_t (a b : rat) (c : cell) : rat :=
  (if c1 c == 0%N then a else b) * (if c2 c == 0%N then frac 3 5 else frac 4 5).

Ltac mxs := rewrite ?(mxE, big_ord_recl, big_ord0).
Ltac entries := let i := fresh in let y := fresh in apply/matrixP => i y;
  case: i => [[|[|i]]] // ?; case: y => [[|[|[|[|y]]]]] // ?;
  do 8 (rewrite ?mxE ?big_ord_recl ?big_ord0); apply/eqP; vm_compute; reflexivity.

Definition wit_run att vals := tucker_integrator 0 +%R *%R (fun x y => x - y) wit_tqr wit_one wit_u wit_v wit_w wit_core
  wit_inds vals (1%N, 2%N, 2%N) att.

Lemma wit_run_att : exists cn, wit_run (Some wit_att) wit_vals = Ok (wit_u, wit_w, wit_w, cn).
Proof. eexists. vm_compute. reflexivity. Qed.

Ltac vc := vm_compute; reflexivity.
Lemma wit_args att vals : att = None \/ att = Some wit_att -> length vals = 2%N ->
  tucker_args 1 1 2 1 2 1 wit_u wit_v wit_w wit_core wit_inds vals att.
Proof.
  move=> HA LV. split; first by split => //; case: HA => ->.
  split; first by []. do 2 (split; first by []). split => //.
  do !constructor; apply/ltP; vc.
Qed.

Lemma wit_orth_v : orthonormal 2 1 wit_v.
Proof. rewrite /orthonormal. entries. Qed.
Lemma wit_orth_w : orthonormal 2 1 wit_w.
Proof. rewrite /orthonormal. entries. Qed.

Lemma wit_keeps : keeps_columns 1 1 2 1 2 1 wit_u wit_v wit_w wit_core (wit_t 3%:Q 3%:Q).
Proof.
  split.
  - exists (\matrix_(i, y) nth 0 [:: frac 3 15; frac 3 15; frac 4 15; frac 4 15] y). entries.
  - exists (\matrix_(i, y) nth 0 [:: frac 3 15; frac 4 15] y). entries.
  - exists (\matrix_(i, y) nth 0 [:: frac 1 3; frac 1 3] y). entries.
Qed.

(** With the attention above the run is not exact: items (63/25, 84/25) instead of (3, 3). *)
Lemma attention_witness :
  exists (qr : mat rat -> res (mat rat * mat rat)) is_one u v w core inds vals att t un vn wn cn,
  qr_ok qr /\ (forall x, is_one x = true -> x = 1) /\
  tucker_args 1 1 2 1 2 1 u v w core inds vals (Some att) /\
  processed max_points (length inds) = length inds /\
  orthonormal 1 1 u /\ orthonormal 2 1 v /\ orthonormal 2 1 w /\
  is_target 1 2 2 u v w core (List.combine inds vals) (Some att) t /\
  keeps_columns 1 1 2 1 2 1 u v w core t /\
  tucker_integrator 0 +%R *%R (fun x y => x - y) qr is_one u v w core inds vals (1%N, 2%N, 2%N) (Some att) = Ok (un, vn, wn, cn) /\
  t (0%N, 0%N, 0%N) = 9%:Q / 5%:Q /\ rep un vn wn cn (0%N, 0%N, 0%N) = 189%:Q / 125%:Q.
Proof.
  exists wit_tqr, wit_one, wit_u, wit_v, wit_w, wit_core, wit_inds, wit_vals, wit_att, (wit_t 3%:Q 3%:Q).
  do 4 eexists.
  split; first exact: wit_tqr_ok. split; first exact: wit_one_ok.
  split; first by apply: wit_args => //; right.
  split; first by vc. split; first by rewrite /orthonormal; entries.
  split; first exact: wit_orth_v. split; first exact: wit_orth_w.
  split.
    move=> i j k. case: i => [[|i]] // Hi; case: j => [[|[|j]]] // Hj; case: k => [[|[|k]]] // Hk;
    rewrite !big_ord_recl big_ord0 !mxE -!denseE; apply/eqP; vc.
  split; first exact: wit_keeps.
  split; first by vc. split; apply/eqP; vc.
Qed.

(** Without attention the run with [demo_vals] is exact. *)
Lemma plain_keeps : keeps_columns 1 1 2 1 2 1 wit_u wit_v wit_w wit_core (wit_t 3%:Q 4%:Q).
Proof.
  split.
  - exists (\matrix_(i, y) nth 0 [:: frac 3 15; frac 4 15; frac 4 15; frac 16 45] y). entries.
  - exists (\matrix_(i, y) nth 0 [:: frac 3 15; frac 4 15] y). entries.
  - exists (\matrix_(i, y) nth 0 [:: frac 1 3; frac 4 9] y). entries.
Qed.

Lemma plain_witness :
  exists vn wn cn, qr_ok wit_tqr /\
  tucker_args 1 1 2 1 2 1 wit_u wit_v wit_w wit_core wit_inds demo_vals None /\
  processed max_points (length wit_inds) = length wit_inds /\
  orthonormal 2 1 wit_v /\ orthonormal 2 1 wit_w /\
  (forall i j k, (i < 1)%N -> (j < 2)%N -> (k < 2)%N ->
     wit_t 3%:Q 4%:Q (i, j, k) = rep wit_u wit_v wit_w wit_core (i, j, k) + dense (List.combine wit_inds demo_vals) (i, j, k)) /\
  keeps_columns 1 1 2 1 2 1 wit_u wit_v wit_w wit_core (wit_t 3%:Q 4%:Q) /\
  wit_run None demo_vals = Ok (wit_u, vn, wn, cn) /\
  [&& same vn (mkMat 2 1 [:: frac 3 5; frac 4 5]), same wn (mkMat 2 1 [:: frac 3 5; frac 4 5]) & tdat cn == [:: 5%:Q]].
Proof.
  do 3 eexists. split; first exact: wit_tqr_ok. split; first by apply: wit_args => //; left.
  split; first by vc. split; first exact: wit_orth_v. split; first exact: wit_orth_w.
  split.
    move=> i j k. case: i => [|i] // Hi; case: j => [|[|j]] // Hj; case: k => [|[|k]] // Hk;
    rewrite -!denseE; apply/eqP; vc.
  split; first exact: plain_keeps. split; vc.
Qed.

(** Embeddings: one new user with the random value 3/4. *)
Definition emb_normal (r c : nat) : mat rat := build r c (fun _ _ => frac 3 4).
Definition emb_qr : mat rat -> res (mat rat * mat rat) :=
  lookup [:: (mkMat 2 1 [:: 1; frac 3 4], (mkMat 2 1 [:: frac 4 5; frac 3 5], mkMat 1 1 [:: frac 5 4]))].
