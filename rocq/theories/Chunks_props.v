(** Property C105: what the chunk boundaries decide. *)
From Coq Require Import ZArith Permutation.
From Verif Require Import Prelude DataPrep_model DataPrep_spec History_model History_spec Psi_model Psi_spec Tirec_model
  Tensor_model Matrix_model Attention_model LinAlg_model Num_model Chunks_spec.
From Verif Require Chunks_main Chunks_wit.
Set Warnings "-notation-overridden".
From mathcomp Require Import all_ssreflect all_algebra.
From Verif Require Import LinAlg_spec Upd_spec Exact_spec Num_spec Chunks_nspec.
From Verif Require Chunks_num Chunks_nwit Num_wit.
Set Implicit Arguments.
Unset Strict Implicit.
Unset Printing Implicit Defensive.
Import GRing.Theory.
Local Open Scope ring_scope.

(** C105.  PSI given the same interactions in other chunks, or in another order: it knows the
    same users and items and as many of them, it excludes the same items for the same users,
    and the ids of the initial table keep their indices.  With random or zero embeddings every
    such stream is accepted. *)
Theorem psi_books_ignore_chunks :
  (forall rank data cfg cs1 cs2 st0 s1 s2,
    svd_train rank data = Ok st0 -> psi_stream cfg st0 cs1 = Ok s1 -> psi_stream cfg st0 cs2 = Ok s2 ->
    Permutation (List.concat cs1) (List.concat cs2) ->
    (forall k, fu s1 k <> None <-> fu s2 k <> None) /\ (forall k, fi s1 k <> None <-> fi s2 k <> None) /\
    (ps_n_users s1 = ps_n_users s2 /\ ps_n_items s1 = ps_n_items s2) /\
    (forall u i, psi_seen s1 u i <-> psi_seen s2 u i) /\
    (forall k v, fu st0 k = Some v -> fu s1 k = Some v /\ fu s2 k = Some v) /\
    (forall k v, fi st0 k = Some v -> fi s1 k = Some v /\ fi s2 k = Some v))
  /\ (forall cfg, cf_init cfg <> INone -> forall chunks rank data st0, svd_train rank data = Ok st0 ->
        exists s, psi_stream cfg st0 chunks = Ok s).
Proof. split; [exact Chunks_main.psi_books|exact Chunks_main.psi_all_pass]. Qed.
Print Assumptions psi_books_ignore_chunks.

(** C105.  With the incremental SVD the boundaries decide whether the stream is accepted, in
    both directions; and they decide the indices of the new ids. *)
Theorem psi_chunks_decide_refuted :
  (exists rank data cfg c1 c2 st0 s, svd_train rank data = Ok st0 /\
     psi_stream cfg st0 (cons (c1 ++ c2)%list nil) = Err ValueError /\ psi_stream cfg st0 (cons c1 (cons c2 nil)) = Ok s)
  /\ (exists rank data cfg c1 c2 st0 s, svd_train rank data = Ok st0 /\
     psi_stream cfg st0 (cons (c1 ++ c2)%list nil) = Ok s /\ psi_stream cfg st0 (cons c1 (cons c2 nil)) = Err ValueError)
  /\ (exists rank data cfg c1 c2 st0 s1 s2 u, svd_train rank data = Ok st0 /\
     psi_stream cfg st0 (cons (c1 ++ c2)%list nil) = Ok s1 /\ psi_stream cfg st0 (cons c1 (cons c2 nil)) = Ok s2 /\ fu s1 u <> fu s2 u).
Proof. exact Chunks_wit.p_decides. Qed.
Print Assumptions psi_chunks_decide_refuted.

(** C105.  As long as neither stream of updates loses anything, the score of a user and an item
    is the total relevance of their interactions after both. *)
Theorem psi_scores_ignore_chunks :
  forall (R : realFieldType) (of_rel : Z -> R) (svds : mat R -> nat -> res (mat R * list R * mat R))
         (qr : mat R -> res (mat R * mat R)) (svd : mat R -> res (mat R * list R * mat R))
         (rsvd : mat R -> nat -> res (mat R * list R * mat R)) (exceeds_eps : R -> bool)
         (argsort : list R -> list nat) (normal : nat -> nat -> mat R),
  qr_ok qr -> svd_ok svd -> nonneg_svd svd -> truncated_ok rsvd -> lossless rsvd ->
  argsort_ok (fun x y => x <= y) argsort -> randn_ok normal ->
  forall cfg rank data cs1 cs2 x, let r := Z.to_nat rank in
  let update := num_update 0 1 +%R *%R (fun x y => x - y) of_rel qr svd rsvd exceeds_eps argsort normal cfg in
  let stream := num_stream 0 1 +%R *%R (fun x y => x - y) of_rel qr svd rsvd exceeds_eps argsort normal cfg in
  svds_mat_ok svds -> nonneg_svd (fun y => svds y r) -> lossless svds ->
  num_train 0 +%R of_rel svds rank data = Ok x ->
  (\rank (fmx (users_of (nm_book x)) (items_of (nm_book x)) (total of_rel (nm_book x) data)) <= r)%N ->
  lossless_stream of_rel cfg r update x cs1 -> lossless_stream of_rel cfg r update x cs2 ->
  Permutation (List.concat cs1) (List.concat cs2) ->
  exists x1 x2, [/\ stream x cs1 = Ok x1, stream x cs2 = Ok x2 &
    forall u i a b c d, fu (nm_book x1) u = Some a -> fi (nm_book x1) i = Some b -> fu (nm_book x2) u = Some c -> fi (nm_book x2) i = Some d ->
    score r x1 (Z.to_nat a) (Z.to_nat b) = relevance of_rel (data ++ List.concat cs1) u i /\
    score r x2 (Z.to_nat c) (Z.to_nat d) = relevance of_rel (data ++ List.concat cs1) u i].
Proof. exact: Chunks_num.scores_main. Qed.
Print Assumptions psi_scores_ignore_chunks.

(** C105.  TIRec and TIRecA: the window of a user holds the last [L] items of the initial table
    and the chunks together, padded on the left; a user without rows has none. *)
Theorem window_is_last_items :
  forall v L s rank table data st0 chunks st,
  get_df_with_cropped_pos_column table L s = Ok data -> tdrec_train L rank data nil = Ok st0 ->
  ti_stream v L s st0 chunks = Ok st -> (s = true -> chronological (table ++ List.concat chunks)) -> forall u,
  (List.In u (List.map r_user (table ++ List.concat chunks)%list) -> window st u = Some (padded_items L (table ++ List.concat chunks)%list u)) /\
  (~ List.In u (List.map r_user (table ++ List.concat chunks)%list) -> window st u = None).
Proof. exact Chunks_main.run_window_main. Qed.
Print Assumptions window_is_last_items.

(** C105.  So two streams with the same interactions of every user lead to the same users and
    windows; and to the same items and exclusions when no chunk holds more than [L] rows of a
    user. *)
Theorem windows_ignore_chunks :
  forall v L s rank table data st0 cs1 cs2 s1 s2,
  get_df_with_cropped_pos_column table L s = Ok data -> tdrec_train L rank data nil = Ok st0 ->
  ti_stream v L s st0 cs1 = Ok s1 -> ti_stream v L s st0 cs2 = Ok s2 -> same_histories (List.concat cs1) (List.concat cs2) ->
  (forall u, ti_user s1 u <> None <-> ti_user s2 u <> None) /\
  ((s = true -> chronological (table ++ List.concat cs1)) -> forall u, window s1 u = window s2 u) /\
  (short_chunks L cs1 -> short_chunks L cs2 ->
     (forall i, ti_item s1 i <> None <-> ti_item s2 i <> None) /\ (forall u i, ti_seen s1 u i <-> ti_seen s2 u i)).
Proof. exact Chunks_main.windows_main. Qed.
Print Assumptions windows_ignore_chunks.

(** C105.  For every variant: a chunk with more than [L] rows of a user can make the model miss
    an item and recommend it again; interactions that arrive late end up in another window;
    and the boundaries decide whether the stream is accepted, in both directions. *)
Theorem windows_chunks_decide_refuted :
  forall v, exists L rank table data st0,
  get_df_with_cropped_pos_column table L true = Ok data /\ tdrec_train L rank data nil = Ok st0 /\
  let run := ti_stream v L true st0 in
  (exists c1 c2 s1 s2 u i, run (cons (c1 ++ c2)%list nil) = Ok s1 /\ run (cons c1 (cons c2 nil)) = Ok s2 /\
     ti_item s1 i = None /\ ~ ti_seen s1 u i /\ ti_seen s2 u i) /\
  (exists c1 c2 s1 s2 u, run (cons (c1 ++ c2)%list nil) = Ok s1 /\ run (cons c1 (cons c2 nil)) = Ok s2 /\ window s1 u <> window s2 u) /\
  (exists c1 c2 s2, run (cons (c1 ++ c2)%list nil) = Err ValueError /\ run (cons c1 (cons c2 nil)) = Ok s2) /\
  (exists c0 c1 c2 s1, run (cons c0 (cons (c1 ++ c2)%list nil)) = Ok s1 /\ run (cons c0 (cons c1 (cons c2 nil))) = Err ValueError).
Proof. exact Chunks_wit.q_decides. Qed.
Print Assumptions windows_chunks_decide_refuted.

(** A stream of four interactions in one chunk and in two meets the hypotheses; the windows
    agree and hold the last two items, the new user's one padding. *)
Example windows_of_two_streams :
  (get_df_with_cropped_pos_column Chunks_wit.q_table 2 true = Ok Chunks_wit.q_data /\
   (exists st0, tdrec_train 2 (Zpos 1, Zpos 1, Zpos 1) Chunks_wit.q_data nil = Ok st0) /\
   same_histories (List.concat Chunks_wit.q_one) (List.concat Chunks_wit.q_two) /\
   chronological (Chunks_wit.q_table ++ List.concat Chunks_wit.q_one) /\
   (short_chunks 2 Chunks_wit.q_two /\ ~ short_chunks 2 Chunks_wit.q_one)) /\
  forall v, exists s1 s2, Chunks_wit.q_run v Chunks_wit.q_one = Ok s1 /\ Chunks_wit.q_run v Chunks_wit.q_two = Ok s2 /\
  (window s1 1 = Some (cons (Some (Zpos 30)) (cons (Some (Zpos 10)) nil)) /\ window s2 1 = Some (cons (Some (Zpos 30)) (cons (Some (Zpos 10)) nil))) /\
  (window s1 3 = Some (cons None (cons (Some (Zpos 20)) nil)) /\ window s2 3 = Some (cons None (cons (Some (Zpos 20)) nil))) /\
  ti_item s1 40 = None /\ ti_item s2 40 = Some (Zpos 3) /\ ~ ti_seen s1 1 40 /\ ti_seen s2 1 40.
Proof.
  split; [|exact Chunks_wit.q_forgets].
  exact (conj Chunks_wit.q_crop (conj Chunks_wit.q_trained (conj Chunks_wit.q_same (conj Chunks_wit.q_order Chunks_wit.q_short)))).
Qed.

(** The lossless run of C65, and the same with its first chunk cut in two. *)
Example scores_of_two_streams :
  [/\ lossless_stream Num_wit.o_rel (mkCfg INone false) 1 (Num_wit.w_update (mkCfg INone false)) Num_wit.e1_x0 [:: Num_wit.e1_c1; Num_wit.e1_c2],
      lossless_stream Num_wit.o_rel (mkCfg INone false) 1 (Num_wit.w_update (mkCfg INone false)) Num_wit.e1_x0 [:: Chunks_nwit.z_ca; Chunks_nwit.z_cb; Num_wit.e1_c2],
      Permutation (List.concat [:: Num_wit.e1_c1; Num_wit.e1_c2]) (List.concat [:: Chunks_nwit.z_ca; Chunks_nwit.z_cb; Num_wit.e1_c2]) &
      Num_wit.table_is Num_wit.e1_x2 3 3 [:: 18%:Q; 24%:Q; 72%:Q; 12%:Q; 16%:Q; 48%:Q; 36%:Q; 48%:Q; 144%:Q] /\
      Num_wit.table_is Chunks_nwit.z_x2 3 3 [:: 18%:Q; 24%:Q; 72%:Q; 12%:Q; 16%:Q; 48%:Q; 36%:Q; 48%:Q; 144%:Q]].
Proof. exact (And4 Num_wit.e1_stream Chunks_nwit.z_stream Chunks_nwit.z_perm (conj Num_wit.e1_scores Chunks_nwit.z_scores)). Qed.
