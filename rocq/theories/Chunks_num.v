(** The scores of PSI do not depend on the chunk boundaries as long as nothing is lost. *)
From Coq Require Import ZArith Lia.
From Verif Require Import Prelude DataPrep_model DataPrep_spec Psi_model Psi_spec Tensor_model Matrix_model Attention_model LinAlg_model Num_model.
From Verif Require Psi_main DataPrep_main.
Set Warnings "-notation-overridden".
From mathcomp Require Import all_ssreflect all_algebra.
From Verif Require Import LinAlg_spec Upd_spec Exact_spec Num_spec Num_lossless Chunks_nspec.
From Verif Require Num_main.
Set Implicit Arguments.
Unset Strict Implicit.
Unset Printing Implicit Defensive.
Import GRing.Theory.
Local Open Scope ring_scope.

Section Scores.
Variable R : realFieldType.
Variable of_rel : Z -> R.

Notation relevance := (relevance of_rel).
Lemma total_ids st (rows : list irow) u i a b : aligned st -> fu st u = Some a -> fi st i = Some b ->
  total of_rel st rows (Z.to_nat a) (Z.to_nat b) = relevance rows u i.
Proof.
  move=> [BU [BI _]] Ea Eb. rewrite /total /relevance. apply: eq_bigl => x. rewrite /hits /fu /fi in Ea Eb *.
  have G (m : mapping) (k k' c : Z) : bij m Z0 -> f_of m k = Some c -> match f_of m k' with Some c' => Z.eqb c' (Z.of_nat (Z.to_nat c)) | None => false end = Z.eqb k' k.
  { move=> B E. have N : Z.le Z0 c by have := DataPrep_main.bij_f_nonneg _ _ _ B E; lia. rewrite Z2Nat.id //.
    case: B => _ [FG _]. case E' : (f_of m k') => [c'|].
    - case: (Z.eqb_spec c' c) => [Ec|Nc].
        symmetry. apply/Z.eqb_eq. apply FG in E. apply FG in E'. by congruence.
      symmetry. apply/Z.eqb_neq => Ek. case: Nc. by congruence.
    - case: (Z.eqb_spec k' k) => // Ek. by congruence. }
  rewrite -(G _ _ (r_user x) _ BU Ea) -(G _ _ (r_item x) _ BI Eb).
  case: (f_of (m_users (ps_maps st)) (r_user x)) => [c|] //. by case: (f_of (m_items (ps_maps st)) (r_item x)) => [d|] //; rewrite andbF.
Qed.
Lemma relevance_perm (a b : list irow) u i : Permutation.Permutation a b -> relevance a u i = relevance b u i.
Proof.
  rewrite /relevance. elim=> [|x l l' _ IH|x y l|l1 l2 l3 _ IH1 _ IH2] //.
  - by rewrite !big_cons IH.
  - rewrite !big_cons. case: ifP => _; case: ifP => _ //. by rewrite addrCA.
  - by rewrite IH1.
Qed.

Variables (svds : mat R -> nat -> res (mat R * list R * mat R)) (qr : mat R -> res (mat R * mat R)) (svd : mat R -> res (mat R * list R * mat R))
         (rsvd : mat R -> nat -> res (mat R * list R * mat R)) (exceeds_eps : R -> bool)
         (argsort : list R -> list nat) (normal : nat -> nat -> mat R).

Lemma scores_main :
  qr_ok qr -> svd_ok svd -> nonneg_svd svd -> truncated_ok rsvd -> lossless rsvd ->
  argsort_ok (fun x y => x <= y) argsort -> randn_ok normal ->
  forall cfg rank data cs1 cs2 x, let r := Z.to_nat rank in
  let update := num_update 0 1 +%R *%R (fun x y => x - y) of_rel qr svd rsvd exceeds_eps argsort normal cfg in
  let stream := num_stream 0 1 +%R *%R (fun x y => x - y) of_rel qr svd rsvd exceeds_eps argsort normal cfg in
  svds_mat_ok svds -> nonneg_svd (fun y => svds y r) -> lossless svds ->
  num_train 0 +%R of_rel svds rank data = Ok x ->
  (\rank (fmx (users_of (nm_book x)) (items_of (nm_book x)) (total of_rel (nm_book x) data)) <= r)%N ->
  lossless_stream of_rel cfg r update x cs1 -> lossless_stream of_rel cfg r update x cs2 ->
  Permutation.Permutation (List.concat cs1) (List.concat cs2) ->
  exists x1 x2, [/\ stream x cs1 = Ok x1, stream x cs2 = Ok x2 &
    forall u i a b c d, fu (nm_book x1) u = Some a -> fi (nm_book x1) i = Some b -> fu (nm_book x2) u = Some c -> fi (nm_book x2) i = Some d ->
    score r x1 (Z.to_nat a) (Z.to_nat b) = relevance (data ++ List.concat cs1) u i /\
    score r x2 (Z.to_nat c) (Z.to_nat d) = relevance (data ++ List.concat cs1) u i].
Proof.
  move=> H1 H2 H3 H4 H5 H6 H7 cfg rank data cs1 cs2 x r update stream S1 S2 S3 E RK L1 L2 P.
  have [x1 [X1 M1 T1]] := Num_main.stream_exact H1 H2 H3 H4 H5 H6 H7 S1 S2 S3 E RK L1.
  have [x2 [X2 M2 T2]] := Num_main.stream_exact H1 H2 H3 H4 H5 H6 H7 S1 S2 S3 E RK L2.
  exists x1, x2. split=> // u i a b c d Ea Eb Ec Ed. rewrite T1 T2 (total_ids _ (proj1 M1) Ea Eb) (total_ids _ (proj1 M2) Ec Ed). split=> //.
  apply: relevance_perm. apply: Permutation.Permutation_app_head. exact: Permutation.Permutation_sym.
Qed.
End Scores.
