(** Witnesses for the matrix theorems: concrete rational runs. *)
From Verif Require Import Prelude Tensor_model Matrix_model Attention_model LinAlg_model.
Set Warnings "-notation-overridden".
From mathcomp Require Import all_ssreflect all_algebra.
From Verif Require Import LinAlg_spec LinAlg_bridge LinAlg_tables.
Set Implicit Arguments.
Unset Strict Implicit.
Unset Printing Implicit Defensive.
Import GRing.Theory.
Local Open Scope ring_scope.

(** Two users, two items, factors U = V = 1 and singular values 2, 1; one new item whose
    random row is (3/4, 15/16). *)
Definition wit_i2 : mat rat := mkMat 2 2 [:: 1; 0; 0; 1].
Definition wit_normal (r c : nat) : mat rat :=
  build r c (fun i j => if i == 2%N then (if j == 0%N then frac 3 4 else frac 15 16) else 0).
Definition wit_qr : mat rat -> res (mat rat * mat rat) :=
  lookup [:: (mkMat 3 2 [:: 1; 0; 0; 1; frac 3 4; frac 15 16],
             (mkMat 3 2 [:: frac 4 5; frac (-9%:Z) 25; 0; frac 4 5; frac 3 5; frac 12 25],
              mkMat 2 2 [:: frac 5 4; frac 9 16; 0; frac 5 4]))].

Lemma random_item_embeddings_witness :
  exists (qr : mat rat -> res (mat rat * mat rat)) normal u s vt u2 s2 v2t,
  qr_ok qr /\ randn_ok normal /\ shape 2 2 u /\ sshape 2 2 s /\ shape 2 2 vt
  /\ (mx 2 2 u)^T *m mx 2 2 u = 1%:M /\ mx 2 2 vt *m (mx 2 2 vt)^T = 1%:M
  /\ psi_add_random 0 +%R *%R qr normal EItems 1 u s vt = Ok (u2, s2, v2t)
  /\ (mx 2 2 u *m smx 2 2 s *m mx 2 2 vt) 0 (lift 0 0) = 0
  /\ (mx 2 2 u2 *m smx 2 2 s2 *m mx 2 3 v2t) 0 (lift 0 0) = 9%:Q / 20%:Q.
Proof.
  exists wit_qr, wit_normal, wit_i2, (SVec [:: 2%:Q; 1]), wit_i2.
  do 3 eexists. split; first by apply: qr_table_ok; vm_compute.
  split; first by []. do 3 (split; first by []).
  have I2 : mx 2 2 wit_i2 = 1%:M.
    apply/matrixP => i j; rewrite !mxE; case: i => [[|[|i]]] // Hi; case: j => [[|[|j]]] // Hj.
  rewrite I2 trmx1 !mul1mx. do 2 (split; first by []). split; first by vm_compute; reflexivity.
  split.
  - rewrite !mxE big1 // => i _. rewrite !mxE. case: i => [[|[|i]]] //= Hi; by rewrite ?mulr0 ?mul0r.
  - rewrite !mxE !big_ord_recl big_ord0 !mxE !big_ord_recl !big_ord0 !mxE. by apply/eqP; vm_compute.
Qed.

(** Rank 1 factors of the 2 x 2 matrix with the single non-zero column (3, 4). *)
Definition demo_u : mat rat := mkMat 2 1 [:: frac 3 5; frac 4 5].
Definition demo_e1 : mat rat := mkMat 1 2 [:: 1; 0].
Definition demo_da : mat rat := mkMat 2 2 [:: 3%:Q; 0; 4%:Q; 0].
Definition demo_qr : mat rat -> res (mat rat * mat rat) :=
  lookup [:: (mkMat 2 1 [:: 6%:Q; 8%:Q], (demo_u, mkMat 1 1 [:: 10%:Q]));
            (mkMat 2 1 [:: 10%:Q; 0], (mkMat 2 1 [:: 1; 0], mkMat 1 1 [:: 10%:Q]));
            (mkMat 2 1 [:: 0; 0], (mkMat 2 1 [:: frac 4 5; frac (-3%:Z) 5], mkMat 1 1 [:: 0]));
            (mkMat 2 1 [:: 75%:Q; 100%:Q], (demo_u, mkMat 1 1 [:: 125%:Q]))].
Definition demo_svd : mat rat -> res (mat rat * list rat * mat rat) :=
  lookup [:: (mkMat 1 1 [:: 5%:Q], (mkMat 1 1 [:: 1], [:: 5%:Q], mkMat 1 1 [:: 1]));
            (mkMat 1 1 [:: 7%:Q], (mkMat 1 1 [:: 1], [:: 7%:Q], mkMat 1 1 [:: 1]))].
Definition demo_rsvd : mat rat -> nat -> res (mat rat * list rat * mat rat) :=
  rsvd_lookup [:: (mkMat 2 2 [:: 3%:Q; 4%:Q; 0; 0], (mkMat 2 1 [:: 1; 0], [:: 5%:Q], mkMat 1 2 [:: frac 3 5; frac 4 5]));
                 (mkMat 2 2 [:: 5%:Q; 0; 0; 7%:Q], (mkMat 2 1 [:: 0; 1], [:: 7%:Q], mkMat 1 2 [:: 0; 1]))].
Definition triple_is (x : res (mat rat * list rat * mat rat)) (u : mat rat) (s : list rat) (vt : mat rat) : bool :=
  match x with Ok (a, b, c) => [&& same a u, b == s & same c vt] | Err _ => false end.
Definition triple_is_mat (x : res (mat rat * mat rat * mat rat)) (u s vt : mat rat) : bool :=
  match x with Ok (a, b, c) => [&& same a u, same b s & same c vt] | Err _ => false end.
