(** Rational data for the concrete cases of the Exact theorems. *)
From Verif Require Import Prelude Tensor_model Tensor_spec Matrix_model Attention_model LinAlg_model Hooi_model Upd_model.
Set Warnings "-notation-overridden".
From mathcomp Require Import all_ssreflect all_algebra.
From Verif Require Import LinAlg_spec LinAlg_bridge LinAlg_tables LinAlg_wit Tucker_spec Hooi_spec Hooi_wit Upd_spec Upd_wit Exact_spec.
Set Implicit Arguments.
Unset Strict Implicit.
Unset Printing Implicit Defensive.
Import GRing.Theory.
Local Open Scope ring_scope.

(** Tables of exact truncated SVDs. *)
Definition exact_entry (e : mat rat * (mat rat * list rat * mat rat)) : bool :=
  let: (x, (u, s, vt)) := e in
  trunc_entry e && match qdot u (np_diag 0 s) with Ok a => same_res (qdot a vt) x | Err _ => false end.
Lemma exact_trunc tab : all exact_entry tab -> all trunc_entry tab.
Proof. by apply: sub_all => -[x [[u s] vt]] /andP []. Qed.
Lemma exact_table_ok tab : all exact_entry tab -> lossless (trunc_lookup tab).
Proof.
  move=> A x rank t. rewrite /trunc_lookup. case E : (lookup tab x) => [[[u s] vt]|] //=.
  case: eqP => // -> [<-] _. case: (lookup_in E) => y [I S]. have := all_in A I. rewrite /=.
  move=> /andP [/andP [/and5P [/eqP U1 /eqP U2 /eqP V1 /eqP V2 L] _] P].
  have Sy : shape (mr y) (mc y) y by []. case: (same_mx Sy S) => -[-> ->] ->.
  have Hu : shape (mr y) (size s) u by []. have Hv : shape (size s) (mc y) vt by [].
  have [Hd Ed] := diag_ok (erefl (size s)).
  move: P. have [a -> [Ha Ea]] := dot_ok Hu Hd. rewrite /product /= -Ed -Ea. exact: same_dot.
Qed.
Lemma trunc_rsvd tab : all trunc_entry tab -> rsvd_ok (trunc_lookup tab).
Proof. by move=> A x rank u s vt E; have [? ? ? _ _] := trunc_table_ok A E; eexists; split; eauto. Qed.

Lemma n_rsvd_exact : lossless n_rsvd /\ rsvd_ok n_rsvd.
Proof. by split; [apply: exact_table_ok; vm_compute|apply: trunc_rsvd; vm_compute]. Qed.

Lemma low_rank1 m n (M : 'M[rat]_(m, n)) (x y : nat -> rat) : (forall i j, M i j == x i * y j) -> low_rank 1 M.
Proof.
  move=> H. exists (\col_i x i), (\row_j y j). apply/matrixP => i j. rewrite !mxE big_ord1 !mxE. exact/eqP.
Qed.
Lemma low_rank2 m n (M : 'M[rat]_(m, n)) (x y x' y' : nat -> rat) : (forall i j, M i j == x i * y j + x' i * y' j) -> low_rank 2 M.
Proof.
  move=> H. exists (\matrix_(i, k) (if k == 0 then x i else x' i)), (\matrix_(k, j) (if k == 0 then y j else y' j)).
  apply/matrixP => i j. rewrite !mxE !big_ord_recl big_ord0 !mxE /= addr0. exact/eqP.
Qed.
Definition at_ (l : list rat) (i : nat) : rat := nth 0 l i.

(** [3 u | 4 u] with u = (3/5, 4/5). *)
Lemma vectors_low : low_rank 1 (row_mx (mx 2 1 demo_u *m smx 1 1 (SVec [:: 3%:Q]) *m mx 1 1 one11) (mx 2 1 (mkMat 2 1 [:: frac 12 5; frac 16 5]))).
Proof.
  apply: (low_rank1 (x := at_ [:: frac 3 5; frac 4 5]) (y := at_ [:: 3%:Q; 4%:Q])) => i j.
  rewrite !mxE. case: splitP => k ->; rewrite !ord1 !mxE.
  - rewrite !big_ord_recl !big_ord0 !mxE !big_ord_recl !big_ord0 !mxE. by case: i => -[|[|]] //= ?; vm_compute.
  - by case: i => -[|[|]] //= ?; vm_compute.
Qed.

(** A = diag(5, 0) in a rotated basis, new block 7, rank 2. *)
Definition k_u : mat rat := mkMat 2 2 [:: frac 3 5; frac 4 5; frac 4 5; frac (-3) 5].
Definition k_v : mat rat := mkMat 2 2 [:: 1; 0; 0; 1].
Definition k_s : mat rat := mkMat 2 2 [:: 5%:Q; 0; 0; 0].
Definition k_new : mat rat := mkMat 1 1 [:: 7%:Q].
Definition k_rsvd : mat rat -> nat -> res (mat rat * list rat * mat rat) :=
  trunc_lookup [:: (mkMat 3 3 [:: 5%:Q; 0; 0; 0; 0; 0; 0; 0; 7%:Q],
                    (mkMat 3 2 [:: 0; 1; 0; 0; 1; 0], [:: 7%:Q; 5%:Q], mkMat 2 3 [:: 0; 0; 1; 1; 0; 0]))].
Lemma k_rsvd_exact : lossless k_rsvd /\ rsvd_ok k_rsvd.
Proof. by split; [apply: exact_table_ok; vm_compute|apply: trunc_rsvd; vm_compute]. Qed.
Lemma k_trunc : truncated_ok k_rsvd /\ lossless k_rsvd.
Proof. by split; [apply: trunc_table_ok; vm_compute|apply: exact_table_ok; vm_compute]. Qed.
Lemma k_orth : (mx 2 2 k_u)^T *m mx 2 2 k_u = 1%:M /\ mx 2 2 k_v *m (mx 2 2 k_v)^T = 1%:M.
Proof.
  by split; apply: mx_eqP => i j; rewrite !mxE !big_ord_recl big_ord0 !mxE; case: i => -[|[|]] //= ?; case: j => -[|[|]] //= ?; vm_compute.
Qed.
Lemma k_low : low_rank 2 (block_mx (mx 2 2 k_u *m mx 2 2 k_s *m mx 2 2 k_v) 0 0 (mx 1 1 k_new)).
Proof.
  apply: (low_rank2 (x := at_ [:: 3%:Q; 4%:Q; 0]) (y := at_ [:: 1; 0; 0]) (x' := at_ [:: 0; 0; 7%:Q]) (y' := at_ [:: 0; 0; 1])) => i j.
  rewrite !mxE. case: splitP => k ->; rewrite !mxE; case: splitP => l ->; rewrite !mxE.
  - rewrite !big_ord_recl !big_ord0 !mxE !big_ord_recl !big_ord0 !mxE.
    by case: k => -[|[|]] //= ?; case: l => -[|[|]] //= ?; vm_compute.
  - by rewrite !ord1; case: k => -[|[|]] //= ?; vm_compute.
  - by rewrite !ord1; case: l => -[|[|]] //= ?; vm_compute.
  - by rewrite !ord1; vm_compute.
Qed.
Lemma k_dg : dg 2 [:: 5%:Q; 0] = mx 2 2 k_s.
Proof. by apply: mx_eqP => i j; rewrite !mxE; case: i => -[|[|]] //= ?; case: j => -[|[|]] //= ?; vm_compute. Qed.
Lemma k_svd : svd_ok demo_svd /\ nonneg_svd demo_svd.
Proof.
  split; first by apply: svd_table_ok; vm_compute.
  move=> x u s vt E. case: (lookup_in E) => y [I _]. by case: I => [[_ _ <- _]|[[_ _ <- _]|[]]].
Qed.

(** The tensor 25 u o u o 1, decomposed with rank one. *)
Definition x_ten : ten rat := mkTen (2, 2, 1)%N [:: 9%:Q; 12%:Q; 12%:Q; 16%:Q].
Definition x_table : list (mat rat * (mat rat * list rat * mat rat)) :=
  [:: (mkMat 2 2 [:: 9%:Q; 12%:Q; 12%:Q; 16%:Q], (demo_u, [:: 25%:Q], mkMat 1 2 [:: frac 3 5; frac 4 5]));
      (mkMat 4 1 [:: 9%:Q; 12%:Q; 12%:Q; 16%:Q], (mkMat 4 1 [:: frac 9 25; frac 12 25; frac 12 25; frac 16 25], [:: 25%:Q], one11))].
Definition x_rsvd (t : nat) : mat rat -> nat -> res (mat rat * list rat * mat rat) := trunc_lookup x_table.
Lemma x_rsvd_exact : (forall t, truncated_ok (x_rsvd t)) /\ (forall t, lossless (x_rsvd t)).
Proof. by split=> t; [apply: trunc_table_ok; vm_compute|apply: exact_table_ok; vm_compute]. Qed.
Lemma x_fits : fits 2 1 2 1 1 1 (tget 0 x_ten).
Proof.
  split.
  - apply: (low_rank1 (x := at_ [:: 3%:Q; 4%:Q]) (y := at_ [:: 3%:Q; 4%:Q])) => i j. rewrite !mxE.
    by case: i => -[|[|]] //= ?; case: j => -[|[|]] //= ?; vm_compute.
  - apply: (low_rank1 (x := at_ [:: 3%:Q; 4%:Q]) (y := at_ [:: 3%:Q; 4%:Q])) => i j. rewrite !mxE.
    by case: i => -[|[|]] //= ?; case: j => -[|[|]] //= ?; vm_compute.
  - apply: (low_rank1 (x := at_ [:: 1]) (y := at_ [:: 9%:Q; 12%:Q; 12%:Q; 16%:Q])) => i j. rewrite !mxE.
    by case: i => -[|] //= ?; case: j => -[|[|[|[|]]]] //= ?; vm_compute.
Qed.

(** The same tensor as sparse data, one cell given twice. *)
Definition x_inds : list cell := [:: (0, 0, 0); (0, 1, 0); (1, 0, 0); (1, 1, 0); (1, 1, 0)]%N.
Definition x_vals : list rat := [:: 9%:Q; 12%:Q; 12%:Q; 10%:Q; 6%:Q].
Definition x_svds (x : @coo rat) (r : nat) : res (mat rat) :=
  if [&& coo_r x == 2, coo_c x == 2 & r == 1]%N
     && (coo_entries x == [:: ((0, 0), 9%:Q); ((0, 1), 12%:Q); ((1, 0), 12%:Q); ((1, 1), 10%:Q); ((1, 1), 6%:Q)]%N)
  then Ok demo_u
  else if [&& coo_r x == 2, coo_c x == 2 & r == 1]%N
     && (coo_entries x == [:: ((0, 0), 9%:Q); ((1, 0), 12%:Q); ((0, 1), 12%:Q); ((1, 1), 10%:Q); ((1, 1), 6%:Q)]%N)
  then Ok demo_u
  else if (coo_r x == 1%N) && (r == 1%N) then Ok one11 else Err ValueError.
Lemma x_svds_ok : svds_ok x_svds /\ lossless_left x_svds.
Proof.
  have OU : (mx 2 1 demo_u)^T *m mx 2 1 demo_u = 1%:M by case: n_orth.
  have O1 : (mx 1 1 one11)^T *m mx 1 1 one11 = 1%:M by case: n_orth.
  split=> x r u; rewrite /x_svds.
  - case: ifP => [/andP [/and3P [/eqP -> _ /eqP ->] _] [<-]|_] //.
    case: ifP => [/andP [/and3P [/eqP -> _ /eqP ->] _] [<-]|_] //.
    by case: ifP => // /andP [/eqP -> /eqP ->] [<-].
  - case: ifP => [/andP [/and3P [/eqP Er /eqP Ec /eqP ->] /eqP E] [<-]|_].
      rewrite /= Er Ec => _. apply: mx_eqP => i j. rewrite /proj !mxE !big_ord_recl big_ord0 !mxE !big_ord_recl !big_ord0 !mxE E !big_cons !big_nil.
      by case: i => -[|[|]] //= ?; case: j => -[|[|]] //= ?; vm_compute.
    case: ifP => [/andP [/and3P [/eqP Er /eqP Ec /eqP ->] /eqP E] [<-]|_].
      rewrite /= Er Ec => _. apply: mx_eqP => i j. rewrite /proj !mxE !big_ord_recl big_ord0 !mxE !big_ord_recl !big_ord0 !mxE E !big_cons !big_nil.
      by case: i => -[|[|]] //= ?; case: j => -[|[|]] //= ?; vm_compute.
    case: ifP => // /andP [/eqP Er /eqP ->] [<-]. rewrite /= Er => _. by rewrite /proj (mulmx1C O1) mul1mx.
Qed.
Lemma x_range : List.Forall (in_range (2, 2, 1)%N) x_inds.
Proof. by repeat (apply: List.Forall_cons; first by split; [|split]; apply/ltP). Qed.

(** New block for a rank (2, 2, 1) model with the single core entry 3. *)
Definition y_core : ten rat := mkTen (2, 2, 1)%N [:: 3%:Q; 0; 0; 0].
Definition y_vals : list rat := [:: 2%:Q; 2%:Q].
Definition y_table : list (mat rat * (mat rat * list rat * mat rat)) :=
  [:: (mkMat 1 1 [:: 4%:Q], (one11, [:: 4%:Q], one11));
      (mkMat 3 3 [:: 3%:Q; 0; 0; 0; 0; 0; 0; 0; 4%:Q],
       (mkMat 3 2 [:: 0; 1; 0; 0; 1; 0], [:: 4%:Q; 3%:Q], mkMat 2 3 [:: 0; 0; 1; 1; 0; 0]));
      (mkMat 9 1 [:: 3%:Q; 0; 0; 0; 0; 0; 0; 0; 4%:Q],
       (mkMat 9 1 [:: frac 3 5; 0; 0; 0; 0; 0; 0; 0; frac 4 5], [:: 5%:Q], one11))].
Definition y_rsvd (t : nat) : mat rat -> nat -> res (mat rat * list rat * mat rat) := trunc_lookup y_table.
Lemma y_rsvd_exact : (forall t, truncated_ok (y_rsvd t)) /\ (forall t, lossless (y_rsvd t)).
Proof. by split=> t; [apply: trunc_table_ok; vm_compute|apply: exact_table_ok; vm_compute]. Qed.

Lemma y_cells (i : 'I_4) (j : 'I_3) (k : 'I_2) :
  block_tensor 3 2 2 1 (rep b_u b_v demo_u y_core) (dense (List.combine b_inds y_vals)) (Some h_att) demo_u (i : nat, j : nat, k : nat)
  == at_ [:: frac 2 3; frac 2 3; frac 1 3; 0] i * (3%:Q * at_ [:: frac 3 5; frac 4 5; 0] j * at_ [:: frac 3 5; frac 4 5] k)
     + at_ [:: 0; 0; 0; 1] i * (4%:Q * at_ [:: 0; 0; 1] j * at_ [:: frac 3 5; frac 4 5] k).
Proof.
  rewrite /block_tensor /rep /dense.
  rewrite !big_ord_recl !big_ord0 /= !mxE !big_ord_recl !big_ord0 /= !mxE /= !big_cons !big_nil.
  by case: i => -[|[|[|[|]]]] //= ?; case: j => -[|[|[|]]] //= ?; case: k => -[|[|]] //= ?; vm_compute.
Qed.
Lemma y_low :
  let T := block_tensor 3 2 2 1 (rep b_u b_v demo_u y_core) (dense (List.combine b_inds y_vals)) (Some h_att) demo_u in
  low_rank 2 (unf 0 1 4 3 2 T) /\ low_rank 2 (unf 1 0 3 4 2 T).
Proof.
  split.
  - exists (\matrix_(i, k) (if k == 0 then at_ [:: frac 2 3; frac 2 3; frac 1 3; 0] i else at_ [:: 0; 0; 0; 1] i)),
      (\matrix_(k, j) (if k == 0 then 3%:Q * at_ [:: frac 3 5; frac 4 5; 0] (lo j) * at_ [:: frac 3 5; frac 4 5] (hi j)
                      else 4%:Q * at_ [:: 0; 0; 1] (lo j) * at_ [:: frac 3 5; frac 4 5] (hi j))).
    apply: mx_eqP => i j. rewrite !mxE !big_ord_recl big_ord0 !mxE /= addr0. exact: (y_cells i (lo j) (hi j)).
  - exists (\matrix_(i, k) (if k == 0 then 3%:Q * at_ [:: frac 3 5; frac 4 5; 0] i else 4%:Q * at_ [:: 0; 0; 1] i)),
      (\matrix_(k, j) (if k == 0 then at_ [:: frac 2 3; frac 2 3; frac 1 3; 0] (lo j) * at_ [:: frac 3 5; frac 4 5] (hi j)
                      else at_ [:: 0; 0; 0; 1] (lo j) * at_ [:: frac 3 5; frac 4 5] (hi j))).
    apply: mx_eqP => i j. rewrite !mxE !big_ord_recl big_ord0 !mxE /= addr0.
    have := y_cells (lo j) i (hi j). rewrite /place /= => /eqP ->. apply/eqP. by congr (_ + _); rewrite mulrCA.
Qed.

(** Randomised SVD of (3 0; 4 0). *)
Definition s_qr : mat rat -> res (mat rat * mat rat) :=
  lookup [:: (mkMat 2 1 [:: 3%:Q; 4%:Q], (demo_u, mkMat 1 1 [:: 5%:Q]))].
Definition s_svd : mat rat -> res (mat rat * list rat * mat rat) :=
  lookup [:: (mkMat 1 2 [:: 5%:Q; 0], (one11, [:: 5%:Q], mkMat 1 2 [:: 1; 0]));
            (mkMat 2 2 [:: 3%:Q; 4%:Q; 0; 0],
             (mkMat 2 2 [:: 1; 0; 0; 1], [:: 5%:Q; 0], mkMat 2 2 [:: frac 3 5; frac 4 5; frac 4 5; frac (-3) 5]))].
Lemma s_contracts : [/\ qr_ok s_qr, svd_ok s_svd & descending_svd s_svd].
Proof.
  split; [by apply: qr_table_ok; vm_compute|by apply: svd_table_ok; vm_compute|split].
  - move=> x u s vt E. case: (lookup_in E) => y [I _]. by case: I => [[_ _ <- _]|[[_ _ <- _]|[]]].
  - move=> x u s vt E. case: (lookup_in E) => y [I _].
    case: I => [[_ _ <- _]|[[_ _ <- _]|[]]] // i j.
    + by case: i j => [|i] [|j] //=; rewrite ?andbF.
    + by case: i j => [|[|i]] [|[|j]] //=; rewrite ?andbF.
Qed.
Lemma s_low : low_rank 1 (mx 2 2 demo_da) /\
  (exists Y, mx 2 2 demo_da = powers (mx 2 2 demo_da) (mx 2 2 demo_da *m mx 2 (1 + 0) (r_randn 2 (1 + 0)%N)) 0 *m Y).
Proof.
  split.
    apply: (low_rank1 (x := at_ [:: 3%:Q; 4%:Q]) (y := at_ [:: 1; 0])) => i j. rewrite !mxE.
    by case: i => -[|[|]] //= ?; case: j => -[|[|]] //= ?; vm_compute.
  exists (mx 1 2 demo_e1). apply: mx_eqP => i j. rewrite /powers /= !mxE !big_ord_recl !big_ord0 !mxE !big_ord_recl !big_ord0 !mxE.
  by case: i => -[|[|]] //= ?; case: j => -[|[|]] //= ?; vm_compute.
Qed.

(** The old unfolding with the new vector below it. *)
Lemma n_low : low_rank 1 (col_mx (unf 0 1 2 2 1 (rep3 n_fs n_core)) (mx 1 (2 * 1) n_new)).
Proof.
  apply: (low_rank1 (x := at_ [:: frac 9 5; frac 12 5; 4%:Q]) (y := at_ [:: frac 3 5; frac 4 5])) => i j.
  rewrite !mxE. case: splitP => k ->; rewrite !mxE.
  - by case: k => -[|[|]] //= ?; case: j => -[|[|]] //= ?; vm_compute.
  - by rewrite !ord1; case: j => -[|[|]] //= ?; vm_compute.
Qed.
