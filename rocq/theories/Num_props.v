(** Properties C64 to C67: the PSI model with its factor matrices. *)
From Coq Require Import ZArith.
From Verif Require Import Prelude DataPrep_model DataPrep_spec Psi_model Psi_spec Tensor_model Matrix_model Attention_model LinAlg_model Num_model.
Set Warnings "-notation-overridden".
From mathcomp Require Import all_ssreflect all_algebra.
From Verif Require Import LinAlg_spec Upd_spec Exact_spec Num_spec.
From Verif Require LinAlg_tables LinAlg_wit Upd_wit Num_main Num_wit.
Set Implicit Arguments.
Unset Strict Implicit.
Unset Printing Implicit Defensive.
Import GRing.Theory.
Local Open Scope ring_scope.

(** C64.  An update moves the mappings, counts, history and log exactly as the bookkeeping
    model says, keeps the rank, and leaves one row of factors per known user and one column
    per known item; it raises only if the bookkeeping refuses or a routine raises. *)
Theorem numpsi_update_bookkeeping :
  forall (R : comRingType) (of_rel : Z -> R) (qr : mat R -> res (mat R * mat R)) (svd : mat R -> res (mat R * list R * mat R))
         (rsvd : mat R -> nat -> res (mat R * list R * mat R)) (exceeds_eps : R -> bool)
         (argsort : list R -> list nat) (normal : nat -> nat -> mat R) (le : R -> R -> bool),
  qr_ok qr -> svd_ok svd -> truncated_ok rsvd -> argsort_ok le argsort -> randn_ok normal ->
  forall cfg r x data, model_ok r x ->
  match num_update 0 1 +%R *%R (fun x y => x - y) of_rel qr svd rsvd exceeds_eps argsort normal cfg x data with
  | Ok x' => psi_update cfg (nm_book x) data = Ok (nm_book x') /\ model_ok r x'
  | Err e => routine_raises qr svd rsvd r e \/ psi_update cfg (nm_book x) data = Err e
  end.
Proof. exact: Num_main.update_book. Qed.
Print Assumptions numpsi_update_bookkeeping.

(** C64.  The same for a stream of updates. *)
Theorem numpsi_stream_bookkeeping :
  forall (R : comRingType) (of_rel : Z -> R) (qr : mat R -> res (mat R * mat R)) (svd : mat R -> res (mat R * list R * mat R))
         (rsvd : mat R -> nat -> res (mat R * list R * mat R)) (exceeds_eps : R -> bool)
         (argsort : list R -> list nat) (normal : nat -> nat -> mat R) (le : R -> R -> bool),
  qr_ok qr -> svd_ok svd -> truncated_ok rsvd -> argsort_ok le argsort -> randn_ok normal ->
  forall cfg r x chunks, model_ok r x ->
  match num_stream 0 1 +%R *%R (fun x y => x - y) of_rel qr svd rsvd exceeds_eps argsort normal cfg x chunks with
  | Ok x' => psi_stream cfg (nm_book x) chunks = Ok (nm_book x') /\ model_ok r x'
  | Err e => routine_raises qr svd rsvd r e \/ psi_stream cfg (nm_book x) chunks = Err e
  end.
Proof. exact: Num_main.stream_book. Qed.
Print Assumptions numpsi_stream_bookkeeping.

(** C64.  Training returns such a state with orthonormal factors. *)
Theorem numpsi_train_bookkeeping :
  forall (R : realFieldType) (of_rel : Z -> R) (svds : mat R -> nat -> res (mat R * list R * mat R)),
  svds_mat_ok svds -> forall rank data x, num_train 0 +%R of_rel svds rank data = Ok x ->
  let r := Z.to_nat rank in
  [/\ svd_train rank data = Ok (nm_book x), model_ok r x & ortho r (users_of (nm_book x)) (items_of (nm_book x)) (nm_f x)].
Proof. exact: Num_main.train_book. Qed.
Print Assumptions numpsi_train_bookkeeping.

(** C64.  The scores of a known user are that user's row of the score matrix, one per known
    item; an index beyond the known users raises IndexError. *)
Theorem numpsi_scores :
  forall (R : comRingType) r (x : @num_state R) i, model_ok r x ->
  num_scores 0 +%R *%R x i =
    if (i < users_of (nm_book x))%N then Ok [seq score r x i j | j <- iota 0 (items_of (nm_book x))] else Err IndexError.
Proof. exact: Num_main.scores_rows. Qed.
Print Assumptions numpsi_scores.

(** C65.  An update that fits in the rank adds exactly the relevances of the chunk to the
    scores: at every pair of indices the new score is the old one (0 for new users and new
    items) plus the total relevance of the rows with that user and that item. *)
Theorem numpsi_update_lossless :
  forall (R : realFieldType) (of_rel : Z -> R) (qr : mat R -> res (mat R * mat R)) (svd : mat R -> res (mat R * list R * mat R))
         (rsvd : mat R -> nat -> res (mat R * list R * mat R)) (exceeds_eps : R -> bool)
         (argsort : list R -> list nat) (normal : nat -> nat -> mat R),
  qr_ok qr -> svd_ok svd -> nonneg_svd svd -> truncated_ok rsvd -> lossless rsvd ->
  argsort_ok (fun x y => x <= y) argsort -> randn_ok normal ->
  forall cfg r x data x', model_ok r x -> ortho r (users_of (nm_book x)) (items_of (nm_book x)) (nm_f x) ->
  nonneg_middle (nm_f x).1.2 ->
  num_update 0 1 +%R *%R (fun x y => x - y) of_rel qr svd rsvd exceeds_eps argsort normal cfg x data = Ok x' ->
  lossless_update of_rel cfg r x (nm_book x') data ->
  [/\ model_ok r x', ortho r (users_of (nm_book x')) (items_of (nm_book x')) (nm_f x'), nonneg_middle (nm_f x').1.2
    & forall i j, score r x' i j = score r x i j + total of_rel (nm_book x') data i j].
Proof. exact: Num_main.update_exact. Qed.
Print Assumptions numpsi_update_lossless.

(** C65.  Training followed by a stream of updates that each fit in the rank: the scores are
    the total relevance of all interactions seen, as if trained on everything at once. *)
Theorem numpsi_stream_lossless :
  forall (R : realFieldType) (of_rel : Z -> R) (svds : mat R -> nat -> res (mat R * list R * mat R))
         (qr : mat R -> res (mat R * mat R)) (svd : mat R -> res (mat R * list R * mat R))
         (rsvd : mat R -> nat -> res (mat R * list R * mat R)) (exceeds_eps : R -> bool)
         (argsort : list R -> list nat) (normal : nat -> nat -> mat R),
  qr_ok qr -> svd_ok svd -> nonneg_svd svd -> truncated_ok rsvd -> lossless rsvd ->
  argsort_ok (fun x y => x <= y) argsort -> randn_ok normal ->
  forall cfg rank data chunks x, let r := Z.to_nat rank in
  svds_mat_ok svds -> nonneg_svd (fun y => svds y r) -> lossless svds ->
  num_train 0 +%R of_rel svds rank data = Ok x ->
  (\rank (fmx (users_of (nm_book x)) (items_of (nm_book x)) (total of_rel (nm_book x) data)) <= r)%N ->
  lossless_stream of_rel cfg r (num_update 0 1 +%R *%R (fun x y => x - y) of_rel qr svd rsvd exceeds_eps argsort normal cfg) x chunks ->
  exists x', [/\ num_stream 0 1 +%R *%R (fun x y => x - y) of_rel qr svd rsvd exceeds_eps argsort normal cfg x chunks = Ok x', model_ok r x'
    & forall i j, score r x' i j = total of_rel (nm_book x') (data ++ List.concat chunks) i j].
Proof. exact: Num_main.stream_exact. Qed.
Print Assumptions numpsi_stream_lossless.

(** C66.  A chunk of new users rating known items, under the incremental SVD: the update
    starts from the scores with the middle factor transposed, so that the known users keep
    their scores if and only if that factor is symmetric. *)
Theorem numpsi_new_users_transposed :
  forall (R : realFieldType) (of_rel : Z -> R) (qr : mat R -> res (mat R * mat R)) (svd : mat R -> res (mat R * list R * mat R))
         (rsvd : mat R -> nat -> res (mat R * list R * mat R)) (exceeds_eps : R -> bool)
         (argsort : list R -> list nat) (normal : nat -> nat -> mat R),
  qr_ok qr -> svd_ok svd -> truncated_ok rsvd -> lossless rsvd ->
  argsort_ok (fun x y => x <= y) argsort -> randn_ok normal ->
  forall cfg r x data x', cf_init cfg = INone ->
  model_ok r x -> ortho r (users_of (nm_book x)) (items_of (nm_book x)) (nm_f x) ->
  num_update 0 1 +%R *%R (fun x y => x - y) of_rel qr svd rsvd exceeds_eps argsort normal cfg x data = Ok x' ->
  List.Forall (fun y => unknown_user (nm_book x) y /\ ~~ unknown_item (nm_book x) y) data -> data <> [::] ->
  let m := users_of (nm_book x) in let n := items_of (nm_book x) in
  let B i j := at_mx (turned_mx r m n (nm_f x)) i j + total of_rel (nm_book x') data i j in
  \rank (fmx (users_of (nm_book x')) (items_of (nm_book x')) B) = r ->
  (forall i j, score r x' i j = B i j) /\
  ((forall i j, (i < m)%N -> score r x' i j = score r x i j) <-> (smx r r (nm_f x).1.2)^T = smx r r (nm_f x).1.2).
Proof. exact: Num_main.new_users. Qed.
Print Assumptions numpsi_new_users_transposed.

(** C66.  The claim that known users keep their scores when only new users arrive is false of
    the code: training at rank 2, one chunk of known users and items and one chunk of two new
    users rating known items, which fit in rank 2, turn the scores (16, 12) of the first user
    into (7, 24) and (0, 25) of the second into (-12, 16). *)
Theorem numpsi_known_users_kept_refuted :
  exists (svds : mat rat -> nat -> res (mat rat * list rat * mat rat)) (qr : mat rat -> res (mat rat * mat rat))
         (svd : mat rat -> res (mat rat * list rat * mat rat)) (rsvd : mat rat -> nat -> res (mat rat * list rat * mat rat))
         (exceeds_eps : rat -> bool) (argsort : list rat -> list nat) (normal : nat -> nat -> mat rat)
         (data c1 c2 : list irow) (x0 x1 x2 : num_state),
  let update := num_update 0 1 +%R *%R (fun x y => x - y) Num_wit.o_rel qr svd rsvd exceeds_eps argsort normal (mkCfg INone false) in
  [/\ [/\ svds_mat_ok svds, qr_ok qr, svd_ok svd, truncated_ok rsvd & lossless rsvd]
      /\ argsort_ok (fun x y => x <= y) argsort /\ randn_ok normal,
      [/\ num_train 0 +%R Num_wit.o_rel svds (Zpos 2) data = Ok x0, update x0 c1 = Ok x1 & update x1 c2 = Ok x2],
      List.Forall (fun y => unknown_user (nm_book x1) y /\ ~~ unknown_item (nm_book x1) y) c2,
      [/\ score 2 x1 0 0 = 16%:Q, score 2 x1 0 1 = 12%:Q, score 2 x1 1 0 = 0 & score 2 x1 1 1 = 25%:Q]
    & [/\ score 2 x2 0 0 = 7%:Q, score 2 x2 0 1 = 24%:Q, score 2 x2 1 0 = - 12%:Q & score 2 x2 1 1 = 16%:Q]].
Proof. exact: Num_wit.known_users_changed. Qed.
Print Assumptions numpsi_known_users_kept_refuted.

(** C67.  Zero embeddings with the integrator option: a new user all of whose items are new
    gets score 0 for every item, whatever the relevances. *)
Theorem numpsi_cold_interactions_ignored :
  forall (R : realFieldType) (of_rel : Z -> R) (qr : mat R -> res (mat R * mat R)) (svd : mat R -> res (mat R * list R * mat R))
         (rsvd : mat R -> nat -> res (mat R * list R * mat R)) (exceeds_eps : R -> bool)
         (argsort : list R -> list nat) (normal : nat -> nat -> mat R),
  qr_ok qr -> svd_ok svd -> truncated_ok rsvd ->
  argsort_ok (fun x y => x <= y) argsort -> randn_ok normal ->
  forall cfg r x data x' i, cf_init cfg = IZero -> cf_integrator cfg = true ->
  model_ok r x -> ortho r (users_of (nm_book x)) (items_of (nm_book x)) (nm_f x) ->
  num_update 0 1 +%R *%R (fun x y => x - y) of_rel qr svd rsvd exceeds_eps argsort normal cfg x data = Ok x' ->
  let T := fmx (users_of (nm_book x')) (items_of (nm_book x')) (fun i j => score r x i j + total of_rel (nm_book x') data i j) in
  let A := fmx (users_of (nm_book x')) (items_of (nm_book x')) (score r x) in
  \rank (T *m A^T) = r ->
  (users_of (nm_book x) <= i)%N ->
  (forall y, List.In y data -> fu (nm_book x') (r_user y) = Some (Z.of_nat i) -> unknown_item (nm_book x) y) ->
  forall j, score r x' i j = 0.
Proof. exact: Num_main.cold_ignored. Qed.
Print Assumptions numpsi_cold_interactions_ignored.

(** A run of C64 and C65 at rank one: after training on (9 12; 12 16), a chunk with a new user
    and a known one and a chunk with a new item, the scores are the totals. *)
Example numpsi_lossless_example :
  Num_wit.w_train (Zpos 1) Num_wit.e1_data = Ok Num_wit.e1_x0
  /\ Num_wit.w_update (mkCfg INone false) Num_wit.e1_x0 Num_wit.e1_c1 = Ok Num_wit.e1_x1
  /\ Num_wit.w_update (mkCfg INone false) Num_wit.e1_x1 Num_wit.e1_c2 = Ok Num_wit.e1_x2
  /\ lossless_stream Num_wit.o_rel (mkCfg INone false) 1 (Num_wit.w_update (mkCfg INone false)) Num_wit.e1_x0 [:: Num_wit.e1_c1; Num_wit.e1_c2]
  /\ Num_wit.table_is Num_wit.e1_x2 3 3 [:: 18%:Q; 24%:Q; 72%:Q; 12%:Q; 16%:Q; 48%:Q; 36%:Q; 48%:Q; 144%:Q].
Proof. exact (conj Num_wit.e1_r0 (conj Num_wit.e1_r1 (conj Num_wit.e1_r2 (conj Num_wit.e1_stream Num_wit.e1_scores)))). Qed.
Print Assumptions numpsi_lossless_example.

(** C65 with zero embeddings. *)
Example numpsi_lossless_zero_example :
  Num_wit.w_update (mkCfg IZero false) Num_wit.e1_x0 Num_wit.e5_c1 = Ok Num_wit.e5_x1
  /\ lossless_update Num_wit.o_rel (mkCfg IZero false) 1 Num_wit.e1_x0 (nm_book Num_wit.e5_x1) Num_wit.e5_c1
  /\ Num_wit.table_is Num_wit.e5_x1 3 2 [:: 9%:Q; 12%:Q; 12%:Q; 16%:Q; 36%:Q; 48%:Q].
Proof. exact (conj Num_wit.e5_r1 (conj Num_wit.e5_loss1 Num_wit.e5_t1)). Qed.

(** C66 and C67: the hypotheses hold of concrete runs. *)
Example numpsi_new_users_example :
  model_ok 2 Num_wit.e3_x1 /\ ortho 2 (users_of (nm_book Num_wit.e3_x1)) (items_of (nm_book Num_wit.e3_x1)) (nm_f Num_wit.e3_x1)
  /\ Num_wit.w_update (mkCfg INone false) Num_wit.e3_x1 Num_wit.e3_c2 = Ok Num_wit.e3_x2
  /\ List.Forall (fun y => unknown_user (nm_book Num_wit.e3_x1) y /\ ~~ unknown_item (nm_book Num_wit.e3_x1) y) Num_wit.e3_c2
  /\ \rank (fmx (users_of (nm_book Num_wit.e3_x2)) (items_of (nm_book Num_wit.e3_x2)) (fun i j =>
       at_mx (turned_mx 2 (users_of (nm_book Num_wit.e3_x1)) (items_of (nm_book Num_wit.e3_x1)) (nm_f Num_wit.e3_x1)) i j
       + total Num_wit.o_rel (nm_book Num_wit.e3_x2) Num_wit.e3_c2 i j)) = 2%N.
Proof.
  case: Num_wit.e3_ok1 => M O _. exact (conj M (conj O (conj Num_wit.e3_r2 (conj Num_wit.e3_users Num_wit.e3_rank)))).
Qed.
Example numpsi_cold_example :
  Num_wit.w_update (mkCfg IZero true) Num_wit.e1_x0 Num_wit.e4_c1 = Ok Num_wit.e4_x1
  /\ \rank (fmx (users_of (nm_book Num_wit.e4_x1)) (items_of (nm_book Num_wit.e4_x1)) (fun i j => score 1 Num_wit.e1_x0 i j + total Num_wit.o_rel (nm_book Num_wit.e4_x1) Num_wit.e4_c1 i j)
       *m (fmx (users_of (nm_book Num_wit.e4_x1)) (items_of (nm_book Num_wit.e4_x1)) (score 1 Num_wit.e1_x0))^T) = 1%N
  /\ Num_wit.table_is Num_wit.e4_x1 3 3 [:: 9%:Q; 12%:Q; 0; 12%:Q; 16%:Q; 0; 0; 0; 0].
Proof. exact (conj Num_wit.e4_r1 (conj Num_wit.e4_rank Num_wit.e4_t1)). Qed.
