(** The lossless run of [Num_wit] with its first chunk cut in two. *)
From Coq Require Import ZArith.
From Verif Require Import Prelude DataPrep_model DataPrep_spec Psi_model Psi_spec Tensor_model Matrix_model Attention_model LinAlg_model Num_model.
Set Warnings "-notation-overridden".
From mathcomp Require Import all_ssreflect all_algebra.
From Verif Require Import LinAlg_spec LinAlg_tables LinAlg_wit Upd_spec Upd_wit Exact_spec Exact_wit Num_spec Num_wit.
Set Implicit Arguments.
Unset Strict Implicit.
Unset Printing Implicit Defensive.
Import GRing.Theory Num.Theory.
Local Open Scope ring_scope.

Definition z_ca : list irow := [:: rw3 50 30 36; rw3 50 40 48].
Definition z_cb : list irow := [:: rw3 10 30 9; rw3 10 40 12].
Definition z_xa := get w_none (w_update plain e1_x0 z_ca).
Definition z_xb := get w_none (w_update plain z_xa z_cb).
Definition z_x2 := get w_none (w_update plain z_xb e1_c2).
Lemma z_ra : w_update plain e1_x0 z_ca = Ok z_xa.
Proof. apply: get_ok. by vm_compute. Qed.
Lemma z_rb : w_update plain z_xa z_cb = Ok z_xb.
Proof. apply: get_ok. by vm_compute. Qed.
Lemma z_r2 : w_update plain z_xb e1_c2 = Ok z_x2.
Proof. apply: get_ok. by vm_compute. Qed.
Lemma z_oka : model_ok 1 z_xa.
Proof. have [M _ _] := e1_ok0. exact (w_book M z_ra). Qed.
Lemma z_okb : model_ok 1 z_xb.
Proof. exact (w_book z_oka z_rb). Qed.
Lemma z_lossa : lossless_update o_rel plain 1 e1_x0 (nm_book z_xa) z_ca.
Proof.
  have [M _ _] := e1_ok0. split.
    split.
    - apply: eq_leq. apply: (ctab_rank (X := col [:: 3%:Q; 4%:Q; 0]) (Y := rw [:: 3%:Q; 4%:Q]) (L := rw [:: frac 1 9; 0; 0]) (K := col [:: 1; 0]) M). by vm_compute.
    - move=> _. split.
        apply: (ctab_rank (X := col [:: 3%:Q; 4%:Q; 12%:Q]) (Y := rw [:: 3%:Q; 4%:Q]) (L := rw [:: frac 1 9; 0; 0]) (K := col [:: 1; 0]) M). by vm_compute.
      move=> _. by apply/matrixP => i j; rewrite !ord1 mxE.
    - move=> H; exfalso; apply: H; by vm_compute.
  rewrite (ctab_prod (X := col [:: 3%:Q; 4%:Q; 12%:Q]) (Y := rw [:: 75%:Q; 100%:Q; 300%:Q]) (L := rw [:: frac 1 225; 0; 0]) (K := col [:: 1; 0; 0]) (k := 1) M); last by vm_compute.
  apply/esym. apply: (ctab_rank (X := col [:: 3%:Q; 4%:Q; 12%:Q]) (Y := rw [:: 3%:Q; 4%:Q]) (L := rw [:: frac 1 9; 0; 0]) (K := col [:: 1; 0]) M).
  by vm_compute.
Qed.
Lemma z_lossb : lossless_update o_rel plain 1 z_xa (nm_book z_xb) z_cb.
Proof.
  have M := z_oka. split.
    split.
    - apply: eq_leq. apply: (ctab_rank (X := col [:: 3%:Q; 4%:Q; 12%:Q]) (Y := rw [:: 3%:Q; 4%:Q]) (L := rw [:: frac 1 9; 0; 0]) (K := col [:: 1; 0]) M). by vm_compute.
    - move=> H; exfalso; apply: H; by vm_compute.
    - move=> H; exfalso; apply: H; by vm_compute.
  rewrite (ctab_prod (X := col [:: 6%:Q; 4%:Q; 12%:Q]) (Y := rw [:: 75%:Q; 100%:Q; 300%:Q]) (L := rw [:: frac 1 450; 0; 0]) (K := col [:: 1; 0; 0]) (k := 1) M); last by vm_compute.
  apply/esym. apply: (ctab_rank (X := col [:: 6%:Q; 4%:Q; 12%:Q]) (Y := rw [:: 3%:Q; 4%:Q]) (L := rw [:: frac 1 18; 0; 0]) (K := col [:: 1; 0]) M).
  by vm_compute.
Qed.
Lemma z_loss2 : lossless_update o_rel plain 1 z_xb (nm_book z_x2) e1_c2.
Proof.
  have M := z_okb. split.
    split.
    - apply: eq_leq. apply: (ctab_rank (X := col [:: 6%:Q; 4%:Q; 12%:Q]) (Y := rw [:: 3%:Q; 4%:Q; 0]) (L := rw [:: frac 1 18; 0; 0]) (K := col [:: 1; 0; 0]) M). by vm_compute.
    - move=> H; exfalso; apply: H; by vm_compute.
    - move=> _. apply: (ctab_rank (X := col [:: 6%:Q; 4%:Q; 12%:Q]) (Y := rw [:: 3%:Q; 4%:Q; 12%:Q]) (L := rw [:: frac 1 18; 0; 0]) (K := col [:: 1; 0; 0]) M). by vm_compute.
  rewrite (ctab_prod (X := col [:: 6%:Q; 4%:Q; 12%:Q]) (Y := rw [:: 1014%:Q; 676%:Q; 2028%:Q]) (L := rw [:: frac 1 6084; 0; 0]) (K := col [:: 1; 0; 0]) (k := 1) M); last by vm_compute.
  apply/esym. apply: (ctab_rank (X := col [:: 6%:Q; 4%:Q; 12%:Q]) (Y := rw [:: 3%:Q; 4%:Q; 12%:Q]) (L := rw [:: frac 1 18; 0; 0]) (K := col [:: 1; 0; 0]) M).
  by vm_compute.
Qed.
Lemma z_stream : lossless_stream o_rel plain 1 (w_update plain) e1_x0 [:: z_ca; z_cb; e1_c2].
Proof.
  exists z_xa. split; [exact z_ra|exact z_lossa|]. exists z_xb. split; [exact z_rb|exact z_lossb|].
  exists z_x2. split; [exact z_r2|exact z_loss2|exact I].
Qed.
Lemma z_perm : Permutation.Permutation (List.concat [:: e1_c1; e1_c2]) (List.concat [:: z_ca; z_cb; e1_c2]).
Proof.
  rewrite /e1_c1 /z_ca /z_cb. cbn [List.concat List.app]. apply: Permutation.perm_skip. exact: Permutation.perm_swap.
Qed.
Lemma z_scores : table_is z_x2 3 3 [:: 18%:Q; 24%:Q; 72%:Q; 12%:Q; 16%:Q; 48%:Q; 36%:Q; 48%:Q; 144%:Q].
Proof. by vm_compute. Qed.
