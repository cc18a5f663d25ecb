(** Assembly of C64 to C67. *)
From Coq Require Import ZArith.
From Verif Require Import Prelude DataPrep_model DataPrep_spec Psi_model Psi_spec Tensor_model Matrix_model Attention_model LinAlg_model Num_model.
Set Warnings "-notation-overridden".
From mathcomp Require Import all_ssreflect all_algebra.
From Verif Require Import LinAlg_spec Upd_spec Exact_spec Num_spec Num_upd Num_book Num_lossless Num_train Num_cold.
Set Implicit Arguments.
Unset Strict Implicit.
Unset Printing Implicit Defensive.
Import GRing.Theory.
Local Open Scope ring_scope.

Section Book.
Variable R : comRingType.
Variable of_rel : Z -> R.
Variables (qr : mat R -> res (mat R * mat R)) (svd : mat R -> res (mat R * list R * mat R)).
Variables (rsvd : mat R -> nat -> res (mat R * list R * mat R)) (exceeds_eps : R -> bool).
Variables (argsort : list R -> list nat) (normal : nat -> nat -> mat R) (le : R -> R -> bool).
Hypotheses (QR : qr_ok qr) (SV : svd_ok svd) (TR : truncated_ok rsvd) (AS : argsort_ok le argsort) (NO : randn_ok normal).

Lemma update_book cfg r x data : model_ok r x ->
  match num_update 0 1 +%R *%R (fun x y => x - y) of_rel qr svd rsvd exceeds_eps argsort normal cfg x data with
  | Ok x' => psi_update cfg (nm_book x) data = Ok (nm_book x') /\ model_ok r x'
  | Err e => routine_raises qr svd rsvd r e \/ psi_update cfg (nm_book x) data = Err e
  end.
Proof.
  move=> M. have := book_main of_rel exceeds_eps QR SV TR AS NO cfg data M.
  by case: (num_update _ _ _ _ _ _ _ _ _ _ _ _ _ _ _) => [x'|e] // [].
Qed.
Lemma stream_book cfg r x chunks : model_ok r x ->
  match num_stream 0 1 +%R *%R (fun x y => x - y) of_rel qr svd rsvd exceeds_eps argsort normal cfg x chunks with
  | Ok x' => psi_stream cfg (nm_book x) chunks = Ok (nm_book x') /\ model_ok r x'
  | Err e => routine_raises qr svd rsvd r e \/ psi_stream cfg (nm_book x) chunks = Err e
  end.
Proof. exact: stream_main. Qed.
End Book.
Lemma scores_rows (R : comRingType) r (x : @num_state R) i : model_ok r x ->
  num_scores 0 +%R *%R x i =
    if (i < users_of (nm_book x))%N then Ok [seq score r x i j | j <- iota 0 (items_of (nm_book x))] else Err IndexError.
Proof. exact: scores_main. Qed.

Section Exact.
Variable R : realFieldType.
Variable of_rel : Z -> R.
Variable svds : mat R -> nat -> res (mat R * list R * mat R).

Lemma train_book : svds_mat_ok svds -> forall rank data x, num_train 0 +%R of_rel svds rank data = Ok x ->
  let r := Z.to_nat rank in
  [/\ svd_train rank data = Ok (nm_book x), model_ok r x & ortho r (users_of (nm_book x)) (items_of (nm_book x)) (nm_f x)].
Proof. by move=> SO rank data x E; have [] := train_main SO E. Qed.

Variables (qr : mat R -> res (mat R * mat R)) (svd : mat R -> res (mat R * list R * mat R)).
Variables (rsvd : mat R -> nat -> res (mat R * list R * mat R)) (exceeds_eps : R -> bool).
Variables (argsort : list R -> list nat) (normal : nat -> nat -> mat R).
Notation num_update cfg := (num_update (0 : R) 1 +%R *%R (fun x y => x - y) of_rel qr svd rsvd exceeds_eps argsort normal cfg).
Notation num_stream cfg := (num_stream (0 : R) 1 +%R *%R (fun x y => x - y) of_rel qr svd rsvd exceeds_eps argsort normal cfg).
Notation total := (total of_rel).

Lemma update_exact :
  qr_ok qr -> svd_ok svd -> nonneg_svd svd -> truncated_ok rsvd -> lossless rsvd ->
  argsort_ok (fun x y => x <= y) argsort -> randn_ok normal ->
  forall cfg r x data x', model_ok r x -> ortho r (users_of (nm_book x)) (items_of (nm_book x)) (nm_f x) ->
  nonneg_middle (nm_f x).1.2 -> num_update cfg x data = Ok x' ->
  lossless_update of_rel cfg r x (nm_book x') data ->
  [/\ model_ok r x', ortho r (users_of (nm_book x')) (items_of (nm_book x')) (nm_f x'), nonneg_middle (nm_f x').1.2
    & forall i j, score r x' i j = score r x i j + total (nm_book x') data i j].
Proof. move=> H1 H2 H3 H4 H5 H6 H7 cfg r x data x' H8 H9 H10 H11 H12. exact: (update_lossless_main H1 H2 H3 H4 H5 H6 H7 H8 H9 H10 H11 H12). Qed.

Lemma stream_exact :
  qr_ok qr -> svd_ok svd -> nonneg_svd svd -> truncated_ok rsvd -> lossless rsvd ->
  argsort_ok (fun x y => x <= y) argsort -> randn_ok normal ->
  forall cfg rank data chunks x, let r := Z.to_nat rank in
  svds_mat_ok svds -> nonneg_svd (fun y => svds y r) -> lossless svds ->
  num_train 0 +%R of_rel svds rank data = Ok x ->
  (\rank (fmx (users_of (nm_book x)) (items_of (nm_book x)) (total (nm_book x) data)) <= r)%N ->
  lossless_stream of_rel cfg r (num_update cfg) x chunks ->
  exists x', [/\ num_stream cfg x chunks = Ok x', model_ok r x'
    & forall i j, score r x' i j = total (nm_book x') (data ++ List.concat chunks) i j].
Proof. move=> H1 H2 H3 H4 H5 H6 H7 cfg rank data chunks x r S1 S2 S3 E RK LS. exact: (train_stream_main H1 H2 H3 H4 H5 H6 H7 S1 S2 S3 E RK LS). Qed.

Lemma new_users :
  qr_ok qr -> svd_ok svd -> truncated_ok rsvd -> lossless rsvd ->
  argsort_ok (fun x y => x <= y) argsort -> randn_ok normal ->
  forall cfg r x data x', cf_init cfg = INone ->
  model_ok r x -> ortho r (users_of (nm_book x)) (items_of (nm_book x)) (nm_f x) -> num_update cfg x data = Ok x' ->
  List.Forall (fun y => unknown_user (nm_book x) y /\ ~~ unknown_item (nm_book x) y) data -> data <> [::] ->
  let m := users_of (nm_book x) in let n := items_of (nm_book x) in
  let B i j := at_mx (turned_mx r m n (nm_f x)) i j + total (nm_book x') data i j in
  \rank (fmx (users_of (nm_book x')) (items_of (nm_book x')) B) = r ->
  (forall i j, score r x' i j = B i j) /\
  ((forall i j, (i < m)%N -> score r x' i j = score r x i j) <-> (smx r r (nm_f x).1.2)^T = smx r r (nm_f x).1.2).
Proof. move=> H1 H2 H3 H4 H5 H6 cfg r x data x' E M O U F N m n B RK. exact: (users_only_main H1 H2 H3 H5 H6 H4 E M O U F N RK). Qed.

Lemma cold_ignored :
  qr_ok qr -> svd_ok svd -> truncated_ok rsvd ->
  argsort_ok (fun x y => x <= y) argsort -> randn_ok normal ->
  forall cfg r x data x' i, cf_init cfg = IZero -> cf_integrator cfg = true ->
  model_ok r x -> ortho r (users_of (nm_book x)) (items_of (nm_book x)) (nm_f x) -> num_update cfg x data = Ok x' ->
  let T := fmx (users_of (nm_book x')) (items_of (nm_book x')) (fun i j => score r x i j + total (nm_book x') data i j) in
  let A := fmx (users_of (nm_book x')) (items_of (nm_book x')) (score r x) in
  \rank (T *m A^T) = r -> (users_of (nm_book x) <= i)%N ->
  (forall y, List.In y data -> fu (nm_book x') (r_user y) = Some (Z.of_nat i) -> unknown_item (nm_book x) y) ->
  forall j, score r x' i j = 0.
Proof. move=> H1 H2 H3 H5 H6 cfg r x data x' i E1 E2 M O U T A RK Hi CO. exact: (cold_users_main H1 H2 H3 H5 H6 E1 E2 M O U RK Hi CO). Qed.
End Exact.
