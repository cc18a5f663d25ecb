(** Rational data for the concrete cases of the Upd theorems. *)
From Verif Require Import Prelude Tensor_model Tensor_spec Matrix_model Attention_model LinAlg_model Hooi_model Upd_model.
Set Warnings "-notation-overridden".
From mathcomp Require Import all_ssreflect all_algebra.
From Verif Require Import LinAlg_spec LinAlg_bridge LinAlg_tables LinAlg_wit Tucker_spec Hooi_spec Hooi_wit Upd_spec.
Set Implicit Arguments.
Unset Strict Implicit.
Unset Printing Implicit Defensive.
Import GRing.Theory.
Local Open Scope ring_scope.

(** A truncated SVD given by a table of matrices; the rank must be that of the entry. *)
Definition trunc_entry (e : mat rat * (mat rat * list rat * mat rat)) : bool :=
  let: (x, (u, s, vt)) := e in
  [&& mr u == mr x, mc u == size s, mr vt == size s, mc vt == mc x & (size s <= minn (mr x) (mc x))%N] &&
  (same_res (qdot (transpose 0 u) u) (eye 0 1 (size s)) && same_res (qdot vt (transpose 0 vt)) (eye 0 1 (size s))).
Definition trunc_lookup (tab : list (mat rat * (mat rat * list rat * mat rat))) (x : mat rat) (rank : nat)
  : res (mat rat * list rat * mat rat) :=
  match lookup tab x with
  | Ok t => if rank == size t.1.2 then Ok t else Err LinAlgError
  | Err e => Err e
  end.

Lemma trunc_table_ok tab : all trunc_entry tab -> truncated_ok (trunc_lookup tab).
Proof.
  move=> A x rank t. rewrite /trunc_lookup. case E : (lookup tab x) => [[[u s] vt]|] //=.
  case: eqP => // -> [<-]. case: (lookup_in E) => y [I S]. have := all_in A I. rewrite /=.
  move=> /andP [/and5P [/eqP U1 /eqP U2 /eqP V1 /eqP V2 L] /andP [O1 O2]].
  have Sy : shape (mr y) (mc y) y by []. case: (same_mx Sy S) => -[-> ->] _.
  rewrite (minn_idPl L).
  have Hu : shape (mr y) (size s) u by []. have Hv : shape (size s) (mc y) vt by [].
  have [Hut Eut] := transpose_ok Hu. have [Hvt Evt] := transpose_ok Hv. have [He Ee] := eye_ok rat_comRing (size s).
  split=> //=; first by rewrite -Eut -Ee; apply: same_dot O1.
  by rewrite -Evt -Ee; apply: same_dot O2.
Qed.
Lemma trunc_right tab : all trunc_entry tab -> right_ok (fun _ : nat => trunc_lookup tab).
Proof. by move=> A t x r u s vt E; case: (trunc_table_ok A E). Qed.

(** New vectors: factors (3/5, 4/5), (3/5, 4/5), (1), core (3); the new vector is four times
    the second factor. *)
Definition n_fs : @factors rat := (demo_u, demo_u, one11).
Definition n_core : ten rat := mkTen (1, 1, 1)%N [:: 3%:Q].
Definition n_new : mat rat := mkMat 1 2 [:: frac 12 5; frac 16 5].
Definition n_table : list (mat rat * (mat rat * list rat * mat rat)) :=
  [:: (mkMat 2 1 [:: frac 9 5; frac 12 5], (demo_u, [:: 3%:Q], one11));
      (mkMat 2 2 [:: 3%:Q; 4%:Q; 0; 0], (mkMat 2 1 [:: 1; 0], [:: 5%:Q], mkMat 1 2 [:: frac 3 5; frac 4 5]))].
Definition n_rsvd : mat rat -> nat -> res (mat rat * list rat * mat rat) := trunc_lookup n_table.
Definition n_svds (op : linop rat) (k : nat) : res (mat rat * list rat * mat rat) :=
  if [&& op_r op == 2, op_c op == 1 & k == 1]%N then
    match op_mv op [:: 1] with
    | Ok v => if v == [:: frac 9 5; frac 12 5] then Ok (demo_u, [:: 3%:Q], one11) else Err LinAlgError
    | Err e => Err e
    end
  else Err LinAlgError.

Lemma n_rsvd_ok : truncated_ok n_rsvd.
Proof. apply: trunc_table_ok. by vm_compute. Qed.

Lemma n_svds_ok : svds_op_ok n_svds.
Proof.
  move=> m n X op k t [E1 E2 MV _]. rewrite /n_svds E1 E2. case: ifP => // /and3P [/eqP Em /eqP En /eqP ->].
  move: E1 E2 => _ _. subst m n. have [w -> [_ Ew]] := MV [:: 1] erefl. case: eqP => // E [<-]. subst w.
  have TR := @n_rsvd_ok (mkMat 2 1 [:: frac 9 5; frac 12 5]) 1%N (demo_u, [:: 3%:Q], one11).
  split=> //.
  - apply: TR. by vm_compute.
  - move=> _. have -> : X = X *m column 1 [:: 1].
      rewrite -[LHS]mulmx1. congr (_ *m _). by apply/matrixP => i j; rewrite !ord1 !mxE.
    rewrite -Ew. apply: mx_eqP => i j. rewrite !ord1 /product !mxE !big_ord_recl big_ord0 !mxE !big_ord_recl big_ord0 !mxE.
    by case: i => -[|[|]] //= ?; vm_compute.
Qed.

Lemma n_orth : orthonormal 2 1 demo_u /\ orthonormal 1 1 one11.
Proof.
  split; apply: mx_eqP => i j; rewrite !ord1 !mxE !big_ord_recl big_ord0 !mxE; by vm_compute.
Qed.
Lemma n_at : factors_at 0 1 2 2 1 2 1 1 1 n_fs n_core.
Proof. by []. Qed.

(** New block: factors of rank (2, 2, 1), core (5 0; 0 0); one new user and one new item. *)
Definition b_u : mat rat := mkMat 3 2 [:: frac 2 3; frac (-2) 3; frac 2 3; frac 1 3; frac 1 3; frac 2 3].
Definition b_v : mat rat := mkMat 2 2 [:: frac 3 5; frac 4 5; frac 4 5; frac (-3) 5].
Definition b_fs : @factors rat := (b_u, b_v, demo_u).
Definition b_core : ten rat := mkTen (2, 2, 1)%N [:: 5%:Q; 0; 0; 0].
Definition b_inds : list cell := [:: (0, 0, 0); (0, 0, 1)]%N.
Definition b_vals : list rat := [:: 6%:Q; 1].
Definition b_table : list (mat rat * (mat rat * list rat * mat rat)) :=
  [:: (mkMat 1 1 [:: 5%:Q], (one11, [:: 5%:Q], one11));
      (mkMat 3 3 [:: 5%:Q; 0; 0; 0; 0; 0; 0; 0; 5%:Q],
       (mkMat 3 2 [:: 0; 1; 0; 0; 1; 0], [:: 5%:Q; 5%:Q], mkMat 2 3 [:: 0; 0; 1; 1; 0; 0]));
      (mkMat 9 1 [:: 5%:Q; 0; 0; 0; 0; 0; 0; 0; 5%:Q],
       (mkMat 9 1 [:: 1; 0; 0; 0; 0; 0; 0; 0; 0], [:: 5%:Q], one11))].
Definition b_rsvd (t : nat) : mat rat -> nat -> res (mat rat * list rat * mat rat) := trunc_lookup b_table.
Lemma b_rsvd_ok : right_ok b_rsvd.
Proof. apply: trunc_right. by vm_compute. Qed.
Lemma b_orth : [/\ orthonormal 3 2 b_u, orthonormal 2 2 b_v & orthonormal 2 1 demo_u].
Proof.
  split; apply: mx_eqP => i j; rewrite !mxE !big_ord_recl big_ord0 !mxE.
  - by case: i => -[|[|]] //= ?; case: j => -[|[|]] //= ?; vm_compute.
  - by case: i => -[|[|]] //= ?; case: j => -[|[|]] //= ?; vm_compute.
  - by rewrite !ord1; vm_compute.
Qed.
Lemma b_range : List.Forall (in_range (1, 1, 2)%N) b_inds.
Proof. by repeat (apply: List.Forall_cons; first by split; [|split]; apply/ltP). Qed.

(** The same new vector with the randomised SVD. *)
Definition r_randn (r c : nat) : mat rat := build r c (fun i j => if (i == 0%N) && (j == 0%N) then 1 else 0).
Definition r_qr : mat rat -> res (mat rat * mat rat) :=
  lookup [:: (mkMat 2 1 [:: 0; 0], (mkMat 2 1 [:: frac 4 5; frac (-3%:Z) 5], mkMat 1 1 [:: 0]));
            (mkMat 2 1 [:: frac 9 5; frac 12 5], (demo_u, mkMat 1 1 [:: 3%:Q]));
            (mkMat 2 3 [:: 75%:Q; 0; 0; 0; 0; 0], (mkMat 2 2 [:: 1; 0; 0; 1], mkMat 2 3 [:: 75%:Q; 0; 0; 0; 0; 0]))].
Definition r_svd : mat rat -> res (mat rat * list rat * mat rat) :=
  lookup [:: (mkMat 1 1 [:: 3%:Q], (one11, [:: 3%:Q], one11));
            (mkMat 2 2 [:: 3%:Q; 4%:Q; 0; 0],
             (mkMat 2 2 [:: 1; 0; 0; 1], [:: 5%:Q; 0], mkMat 2 2 [:: frac 3 5; frac 4 5; frac 4 5; frac (-3) 5]))].
Lemma r_contracts : [/\ qr_ok r_qr, svd_ok r_svd & randn_ok r_randn].
Proof. split; [by apply: qr_table_ok; vm_compute|by apply: svd_table_ok; vm_compute|by []]. Qed.
