(** Properties C25-C27 and C53: repeated training of the sequential models. *)
From Coq Require Import ZArith QArith List Bool Lia Permutation Sorted.
From Verif Require Import Prelude DataPrep_model DataPrep_spec History_model History_spec Eval_model
  Recommend_model Recommend_spec Psi_model Psi_spec Tirec_model Tirec_spec Retrain_model Retrain_spec.
From Verif Require Recommend_main Tirec_stream Retrain_proofs Retrain_main.
Import ListNotations.
Open Scope Z_scope.

(** C25.  The sequential history after any sequence of [train] calls on one object:
    for each index, the last [L] of pads followed by what every call contributed for
    the user that had this index in that call, in that call's item indices. *)
Theorem retrain_history_accumulates : forall L tables tds td,
  retrain L [] tables = Ok tds -> last (map Some tds) None = Some td ->
  forall ui, exists iss,
    Forall2 (fun dt is => contributes (td_mappings (snd dt)) (fst dt) ui is) (combine tables tds) iss
    /\ dget ui (hist_lists (td_seq td))
       = match concat iss with
         | [] => None
         | is => Some (lastn L (repeat PAD_VALUE L ++ is))
         end.
Proof. exact Retrain_proofs.retrain_history_main. Qed.
Print Assumptions retrain_history_accumulates.

(** C25.  A second [TDRec.train] gives a user the history that a fresh object would
    give iff the user has at least [L] rows or the index was unused before. *)
Theorem retrain_history_fresh_iff : forall L d1 d2 td1 td2 fresh u ui,
  (1 <= L)%nat ->
  tdrec_prepare d1 [] L = Ok td1 ->
  tdrec_prepare d2 (td_seq td1) L = Ok td2 ->
  tdrec_prepare d2 [] L = Ok fresh ->
  f_of (m_users (td_mappings td2)) u = Some ui ->
  (td_mappings td2 = td_mappings fresh /\ td_inds td2 = td_inds fresh
   /\ td_vals td2 = td_vals fresh /\ td_history td2 = td_history fresh)
  /\ (dget ui (hist_lists (td_seq td2)) = dget ui (hist_lists (td_seq fresh))
      <-> (L <= length (prows_of u d2))%nat \/ g_of (m_users (td_mappings td1)) ui = None).
Proof. exact Retrain_proofs.retrain_fresh_iff_main. Qed.
Print Assumptions retrain_history_fresh_iff.

(** C25.  The same for TDRecRe, where indices are kept: only users unknown to the
    first call, or with a full window, have a clean history. *)
Theorem reinit_history_fresh_iff : forall L d1 d2 td1 td2 fresh u ui,
  (1 <= L)%nat -> d2 <> [] ->
  tdrec_prepare d1 [] L = Ok td1 ->
  tdrecre_prepare d2 (td_seq td1) L (Some (td_mappings td1)) = Ok td2 ->
  tdrecre_prepare d2 [] L (Some (td_mappings td1)) = Ok fresh ->
  f_of (m_users (td_mappings td2)) u = Some ui ->
  (td_mappings td2 = td_mappings fresh /\ td_inds td2 = td_inds fresh
   /\ td_vals td2 = td_vals fresh /\ td_history td2 = td_history fresh)
  /\ (dget ui (hist_lists (td_seq td2)) = dget ui (hist_lists (td_seq fresh))
      <-> (L <= length (prows_of u d2))%nat \/ f_of (m_users (td_mappings td1)) u = None).
Proof. exact Retrain_main.reinit_history_iff_main. Qed.
Print Assumptions reinit_history_fresh_iff.

(** Users 10 (three items) and 30 (one item); then user 20 arrives and user 30 fills
    the window with other items, so that item 4 disappears. *)
Definition t1_rows : list row := [mkRow 10 1 1 1; mkRow 10 2 2 1; mkRow 10 3 3 1; mkRow 30 4 1 1].
Definition ch_rows : list row := [mkRow 20 1 5 1; mkRow 30 1 5 1; mkRow 30 2 6 1; mkRow 30 3 7 1].
Definition ok_or {A} (d : A) (x : res A) : A := match x with Ok a => a | Err _ => d end.
Definition no_maps : mappings := mkMappings (get_cont_mapping_struct [] 0) (get_cont_mapping_struct [] 0).
Definition no_td : train_data := mkTrain no_maps [] [] (0, 0, 0) [] [].
Definition no_st : ti_state := mkTi no_maps [] [] [] [] [].
Definition t1 : list prow := ok_or [] (get_df_with_cropped_pos_column t1_rows 3 true).
Definition t2 : list prow := ok_or [] (grow_table t1 ch_rows 3).
Definition s1 : ti_state := ok_or no_st (tdrec_train 3 (1, 1, 1) t1 []).
Definition s2 : ti_state := ok_or no_st (tdrec_train 3 (1, 1, 1) t2 (ti_seq s1)).

Example retrain_example :
  get_df_with_cropped_pos_column t1_rows 3 true = Ok t1
  /\ grow_table t1 ch_rows 3 = Ok t2
  /\ tdrec_train 3 (1, 1, 1) t1 [] = Ok s1
  /\ tdrec_train 3 (1, 1, 1) t2 (ti_seq s1) = Ok s2
  /\ hist_lists (ti_seq s1) = [(0, [0; 1; 2]); (1, [-1; -1; 3])]
  /\ hist_lists (ti_seq s2) = [(0, [0; 1; 2]); (1, [-1; 3; 0]); (2, [0; 1; 2])]
  /\ tu s2 20 = Some 1 /\ nitems s2 = 3.
Proof. vm_compute. repeat split. Qed.

Example retrain_two_calls :
  exists tds td, retrain 3 [] [t1; t2] = Ok tds /\ last (map Some tds) None = Some td
    /\ td_seq td = ti_seq s2.
Proof.
  exists (ok_or [] (retrain 3 [] [t1; t2])), (last (ok_or [] (retrain 3 [] [t1; t2])) no_td).
  vm_compute. repeat split.
Qed.

Example retrain_fresh_example :
  exists td1 td2 fresh,
    tdrec_prepare t1 [] 3 = Ok td1 /\ tdrec_prepare t2 (td_seq td1) 3 = Ok td2
    /\ tdrec_prepare t2 [] 3 = Ok fresh
    /\ f_of (m_users (td_mappings td2)) 20 = Some 1 /\ length (prows_of 20 t2) = 1%nat
    /\ g_of (m_users (td_mappings td1)) 1 = Some 30
    /\ dget 1 (hist_lists (td_seq td2)) = Some [-1; 3; 0]
    /\ dget 1 (hist_lists (td_seq fresh)) = Some [-1; -1; 0]
    /\ f_of (m_users (td_mappings td2)) 30 = Some 2 /\ length (prows_of 30 t2) = 3%nat
    /\ dget 2 (hist_lists (td_seq td2)) = dget 2 (hist_lists (td_seq fresh)).
Proof.
  exists (ok_or no_td (tdrec_prepare t1 [] 3)),
    (ok_or no_td (tdrec_prepare t2 (td_seq (ok_or no_td (tdrec_prepare t1 [] 3))) 3)),
    (ok_or no_td (tdrec_prepare t2 [] 3)).
  vm_compute. repeat split.
Qed.

(** User 30 keeps index 1; after re-training on the table with one more row of user
    30 its first item is counted twice. *)
Example reinit_fresh_example :
  exists d2 td1 td2 fresh,
    grow_table t1 [mkRow 30 1 5 1] 3 = Ok d2
    /\ tdrec_prepare t1 [] 3 = Ok td1
    /\ tdrecre_prepare d2 (td_seq td1) 3 (Some (td_mappings td1)) = Ok td2
    /\ tdrecre_prepare d2 [] 3 (Some (td_mappings td1)) = Ok fresh
    /\ f_of (m_users (td_mappings td2)) 30 = Some 1
    /\ dget 1 (hist_lists (td_seq td2)) = Some [3; 3; 0]
    /\ dget 1 (hist_lists (td_seq fresh)) = Some [-1; 3; 0].
Proof.
  pose (d2 := ok_or [] (grow_table t1 [mkRow 30 1 5 1] 3)).
  pose (td1 := ok_or no_td (tdrec_prepare t1 [] 3)).
  exists d2, td1, (ok_or no_td (tdrecre_prepare d2 (td_seq td1) 3 (Some (td_mappings td1)))),
    (ok_or no_td (tdrecre_prepare d2 [] 3 (Some (td_mappings td1)))).
  vm_compute. repeat split.
Qed.

(** C25.  One step of the experiment after which recommending for a known user
    raises IndexError: index 1 now belongs to user 20, but its history starts with
    an item of user 30 whose index no longer exists. *)
Theorem retrain_keeps_recommending_refuted :
  exists L rank table data1 chunk data2 st1 st2 (sc : list (Z * Z) -> list Z) u,
    get_df_with_cropped_pos_column table L true = Ok data1
    /\ tdrec_train L rank data1 [] = Ok st1
    /\ grow_table data1 chunk L = Ok data2
    /\ tdrec_train L rank data2 (ti_seq st1) = Ok st2
    /\ In u (map r_user chunk) /\ tu st2 u <> None
    /\ (forall pi, length (sc pi) = length (ti_irows st2))
    /\ forall argpart k fv int,
         recommend argpart (ti_rec L st2 sc) [u] k fv int = Err IndexError.
Proof.
  exists 3%nat, (1, 1, 1), t1_rows, t1, ch_rows, t2, s1, s2, (fun _ => [1; 2; 3]), 20.
  split; [exact (proj1 retrain_example)|].
  split; [exact (proj1 (proj2 (proj2 retrain_example)))|].
  split; [exact (proj1 (proj2 retrain_example))|].
  split; [exact (proj1 (proj2 (proj2 (proj2 retrain_example))))|].
  split; [left; reflexivity|]. split; [vm_compute; discriminate|]. split; [reflexivity|].
  intros argpart k [] []; vm_compute; reflexivity.
Qed.
Print Assumptions retrain_keeps_recommending_refuted.

(** C26.  Sorted tables, tables produced by cropping, and constant relevance. *)
Theorem values_paired_when_sorted : forall data seq L td own,
  tdrec_prepare data seq L = Ok td -> own_entries (td_mappings td) data own ->
  StronglySorted user_pos_le (map fst own) ->
  combine (td_inds td) (td_vals td) = own.
Proof. exact Retrain_proofs.pairing_sorted_main. Qed.
Print Assumptions values_paired_when_sorted.

Theorem values_paired_after_crop : forall df L s out seq td,
  get_df_with_cropped_pos_column df L s = Ok out ->
  tdrec_prepare out seq L = Ok td ->
  own_entries (td_mappings td) out (combine (td_inds td) (td_vals td)).
Proof. exact Retrain_main.pairing_after_crop_main. Qed.
Print Assumptions values_paired_after_crop.

Theorem values_paired_when_constant : forall data seq L td own r,
  tdrec_prepare data seq L = Ok td -> own_entries (td_mappings td) data own ->
  (forall p, In p data -> r_rel (p_row p) = r) ->
  Permutation (combine (td_inds td) (td_vals td)) own.
Proof. exact Retrain_proofs.pairing_constant_main. Qed.
Print Assumptions values_paired_when_constant.

(** C26.  For a table with distinct cells, the trained tensor is the table's tensor
    iff listing the table in (user, position) order leaves the value column as it is. *)
Theorem values_paired_iff : forall data seq L td own srt,
  tdrec_prepare data seq L = Ok td -> own_entries (td_mappings td) data own ->
  NoDup (map fst own) -> Permutation own srt -> map fst srt = td_inds td ->
  ((forall c, cell c (combine (td_inds td) (td_vals td)) = cell c own) <-> map snd srt = map snd own).
Proof. exact Retrain_proofs.pairing_iff_main. Qed.
Print Assumptions values_paired_iff.

(** A table with two relevance values: rows of one user out of position order. *)
Definition swapped : list prow := [(mkRow 7 1 1 5, 1); (mkRow 7 2 2 3, 0)].

Example values_paired_iff_example :
  exists td, tdrec_prepare swapped [] 2 = Ok td
    /\ own_entries (td_mappings td) swapped [((0, 0, 1), 5); ((0, 1, 0), 3)]
    /\ NoDup (map fst [((0, 0, 1), 5); ((0, 1, 0), 3)])
    /\ Permutation [((0, 0, 1), 5); ((0, 1, 0), 3)] [((0, 1, 0), 3); ((0, 0, 1), 5)]
    /\ td_inds td = [(0, 1, 0); (0, 0, 1)] /\ td_vals td = [5; 3].
Proof.
  eexists. split; [vm_compute; reflexivity|]. split.
  { repeat constructor. }
  split.
  { constructor; [|constructor; [|constructor]]; simpl; intuition discriminate. }
  split; [apply perm_swap|]. split; reflexivity.
Qed.

Theorem values_paired_refuted :
  exists data L td own c,
    tdrec_prepare data [] L = Ok td /\ own_entries (td_mappings td) data own
    /\ NoDup (map fst own) /\ cell c (combine (td_inds td) (td_vals td)) <> cell c own.
Proof.
  exists swapped, 2%nat.
  destruct values_paired_iff_example as [td [H [O [N [P [E1 E2]]]]]].
  exists td, [((0, 0, 1), 5); ((0, 1, 0), 3)], (0, 0, 1).
  split; [exact H|]. split; [exact O|]. split; [exact N|]. rewrite E1, E2. vm_compute. discriminate.
Qed.
Print Assumptions values_paired_refuted.

Example values_paired_after_crop_example :
  exists out td,
    get_df_with_cropped_pos_column [mkRow 9 50 1 4; mkRow 4 51 2 6; mkRow 4 50 1 2] 2 true = Ok out
    /\ tdrec_prepare out [] 2 = Ok td
    /\ combine (td_inds td) (td_vals td) = [((0, 0, 0), 2); ((0, 1, 1), 6); ((1, 0, 0), 4)].
Proof. do 2 eexists. split; [vm_compute; reflexivity|]. split; vm_compute; reflexivity. Qed.

(** C27.  When known ids keep their indices, WJI of internal recommendations speaks
    about ids: it is 1 exactly for equal lists of ids and 0 exactly for disjoint ones. *)
Theorem wji_reads_ids_when_indices_stable :
  forall (m1 m2 : mapping) (topn : nat) (r1 r2 ids1 ids2 : list Z),
  bij m1 0 -> bij m2 0 ->
  (forall k v, f_of m1 k = Some v -> f_of m2 k = Some v) ->
  (1 <= topn)%nat -> length r1 = topn -> length r2 = topn -> NoDup r1 -> NoDup r2 ->
  Forall2 (fun x k => g_of m1 x = Some k) r1 ids1 ->
  Forall2 (fun x k => g_of m2 x = Some k) r2 ids2 ->
  exists q, wji_user (Z.to_nat (n_indices m2)) topn r1 r2 = Ok q
    /\ (q == 1 <-> ids1 = ids2)%Q /\ (q == 0 <-> forall k, In k ids1 -> ~ In k ids2)%Q.
Proof. exact Retrain_main.wji_stable_main. Qed.
Print Assumptions wji_reads_ids_when_indices_stable.

(** C27.  PSI, TIRec/TIRecA and TDRecRe never change the index of a known id (SVD on
    a grown table: reindex_append_stable). *)
Theorem known_ids_keep_indices :
  (forall cfg st data st', aligned st -> psi_update cfg st data = Ok st' ->
     (forall k v, fu st k = Some v -> fu st' k = Some v)
     /\ (forall k v, fi st k = Some v -> fi st' k = Some v))
  /\ (forall v L st data s st', ti_wf L st -> ti_update v L st data s = Ok st' ->
     (forall k x, tu st k = Some x -> tu st' k = Some x)
     /\ (forall k x, tit st k = Some x -> tit st' k = Some x))
  /\ (forall L rank st data seq st', sized st -> data <> [] ->
     tdrecre_train L rank data (Some st) seq = Ok st' ->
     (forall k x, tu st k = Some x -> tu st' k = Some x)
     /\ (forall k x, tit st k = Some x -> tit st' k = Some x)).
Proof. exact Retrain_main.index_stable_main. Qed.
Print Assumptions known_ids_keep_indices.

(** Users 2 and 3; user 1 arrives with item 30: items 10 and 30 swap places. *)
Definition w1_rows : list row := [mkRow 2 10 1 1; mkRow 2 20 2 1; mkRow 3 30 1 1].
Definition w1 : list prow := ok_or [] (get_df_with_cropped_pos_column w1_rows 2 true).
Definition w2 : list prow := ok_or [] (grow_table w1 [mkRow 1 30 5 1; mkRow 1 20 6 1] 2).
Definition ws1 : ti_state := ok_or no_st (tdrec_train 2 (1, 1, 1) w1 []).
Definition ws2 : ti_state := ok_or no_st (tdrec_train 2 (1, 1, 1) w2 (ti_seq ws1)).

(** C27.  Re-trained TDRec: the same ids give 0, disjoint ids give 1. *)
Theorem retrained_wji_reads_ids_refuted :
  exists L rank table data1 chunk data2 st1 st2,
    get_df_with_cropped_pos_column table L true = Ok data1
    /\ tdrec_train L rank data1 [] = Ok st1
    /\ grow_table data1 chunk L = Ok data2
    /\ tdrec_train L rank data2 (ti_seq st1) = Ok st2
    /\ let g1 := g_of (m_items (ti_maps st1)) in
       let g2 := g_of (m_items (ti_maps st2)) in
       (exists k x y, g1 x = Some k /\ g2 y = Some k /\ x <> y)
       /\ (exists x y k q, g1 x = Some k /\ g2 y = Some k
             /\ wji_user (length (ti_irows st2)) 1 [x] [y] = Ok q /\ (q == 0)%Q)
       /\ (exists x y k k' q, g1 x = Some k /\ g2 y = Some k' /\ k <> k'
             /\ wji_user (length (ti_irows st2)) 1 [x] [y] = Ok q /\ (q == 1)%Q).
Proof.
  exists 2%nat, (1, 1, 1), w1_rows, w1, [mkRow 1 30 5 1; mkRow 1 20 6 1], w2, ws1, ws2.
  split; [vm_compute; reflexivity|]. split; [vm_compute; reflexivity|].
  split; [vm_compute; reflexivity|]. split; [vm_compute; reflexivity|].
  split; [|split].
  - exists 10, 0, 2. vm_compute. repeat split. discriminate.
  - exists 0, 2, 10. eexists. split; [vm_compute; reflexivity|]. split; [vm_compute; reflexivity|].
    split; [vm_compute; reflexivity|]. reflexivity.
  - exists 0, 0, 10, 30. eexists. split; [vm_compute; reflexivity|]. split; [vm_compute; reflexivity|].
    split; [discriminate|]. split; [vm_compute; reflexivity|]. reflexivity.
Qed.
Print Assumptions retrained_wji_reads_ids_refuted.

Example wji_reads_ids_example :
  let m1 := get_cont_mapping_struct [10; 20] 0 in
  let m2 := update_cont_mapping_struct m1 [30] in
  bij m1 0 /\ bij m2 0
  /\ (forall k v, f_of m1 k = Some v -> f_of m2 k = Some v)
  /\ Forall2 (fun x k => g_of m1 x = Some k) [1; 0] [20; 10]
  /\ Forall2 (fun x k => g_of m2 x = Some k) [2; 0] [30; 10]
  /\ exists q, wji_user 3 2 [1; 0] [2; 0] = Ok q /\ (q == 1 # 5)%Q.
Proof.
  assert (B : bij (get_cont_mapping_struct [10; 20] 0) 0).
  { apply DataPrep_proofs.get_bij_iff. repeat constructor; simpl; intuition discriminate. }
  split; [exact B|]. split.
  { apply (proj2 (DataPrep_proofs.update_bij_iff _ [30] B)). split.
    - repeat constructor; simpl; intuition.
    - intros x [<-|[]]. reflexivity. }
  split.
  { intros k v. apply DataPrep_proofs.update_keeps. intros x [<-|[]]. reflexivity. }
  split; [repeat constructor|]. split; [repeat constructor|].
  eexists. split; [vm_compute; reflexivity|]. reflexivity.
Qed.

(** C53.  When TDRecRe.train with the previous factors succeeds, with which error it
    fails, and the state it leaves. *)
Theorem reinit_train_outcome : forall L rank st data seq,
  sized st -> data <> [] ->
  let ms' := extend_mappings (ti_maps st) (map p_row data) in
  let '(r0, r1, r2) := rank in
  ((exists st', tdrecre_train L rank data (Some st) seq = Ok st')
   <-> tucker_rank_is_valid rank = true
       /\ (exists k, In k (map r_user (map p_row data)) /\ (tu st k = None \/ tu st k = Some (nusers st - 1)))
       /\ (exists k, In k (map r_item (map p_row data)) /\ (tit st k = None \/ tit st k = Some (nitems st - 1)))
       /\ r0 <= n_indices (m_users ms') /\ r1 <= n_indices (m_items ms') /\ r2 <= Z.of_nat L
       /\ maxZ (map p_pos data) = Ok (Z.of_nat L - 1))
  /\ (forall e, tdrecre_train L rank data (Some st) seq = Err e ->
        e = RuntimeError /\ tucker_rank_is_valid rank = false \/ e = ValueError /\ tucker_rank_is_valid rank = true)
  /\ (forall st', tdrecre_train L rank data (Some st) seq = Ok st' ->
        ti_maps st' = ms' /\ sized st' /\ rows_aligned st').
Proof. exact Retrain_main.reinit_outcome_main. Qed.
Print Assumptions reinit_train_outcome.

(** C53.  In the experiment (users never disappear) the step fails exactly when the
    item with the largest index has left every window and no new item came. *)
Theorem reinit_experiment_step_fails_iff : forall L rank st conc chunk data seq,
  sized st -> 0 < nusers st ->
  (forall k, tu st k <> None -> In k (map r_user (map p_row conc))) ->
  grow_table conc chunk L = Ok data ->
  let '(r0, r1, r2) := rank in
  tucker_rank_is_valid rank = true -> r0 <= nusers st -> r1 <= nitems st -> r2 <= Z.of_nat L ->
  (exists p, In p data /\ p_pos p = Z.of_nat L - 1) ->
  (tdrecre_train L rank data (Some st) seq = Err ValueError
   <-> forall r, In r (map p_row data) -> exists i, tit st (r_item r) = Some i /\ i < nitems st - 1).
Proof. exact Retrain_main.reinit_experiment_main. Qed.
Print Assumptions reinit_experiment_step_fails_iff.

(** The chunk of the example above removes item 4 (index 3) from all windows. *)
Example reinit_fails_example :
  sized s1 /\ rows_aligned s1
  /\ (forall k, tu s1 k <> None -> In k (map r_user (map p_row t1)))
  /\ tucker_rank_is_valid (1, 1, 1) = true
  /\ (exists p, In p t2 /\ p_pos p = 2)
  /\ tdrecre_train 3 (1, 1, 1) t2 (Some s1) (ti_seq s1) = Err ValueError
  /\ (exists d st', grow_table t1 [mkRow 20 1 5 1; mkRow 30 1 5 1] 3 = Ok d
        /\ tdrecre_train 3 (1, 1, 1) d (Some s1) (ti_seq s1) = Ok st' /\ nusers st' = 3 /\ nitems st' = 4).
Proof.
  pose proof (proj1 (Tirec_stream.tirec_stream_main VTIRec 3 (1, 1, 1) true t1_rows t1 [] s1 s1
               (proj1 retrain_example) (proj1 (proj2 (proj2 retrain_example))) eq_refl)) as W.
  split. { destruct W as [A [B [C [D _]]]]. exact (conj A (conj B (conj C D))). }
  split. { split; vm_compute; reflexivity. }
  split.
  { pose proof (proj1 (proj2 (Tirec_stream.tirec_stream_main VTIRec 3 (1, 1, 1) true t1_rows t1 [] s1 s1
               (proj1 retrain_example) (proj1 (proj2 (proj2 retrain_example))) eq_refl))) as K.
    intros k Hk. apply (proj1 (K k)) in Hk. exact (proj2 (Retrain_main.crop_users _ _ _ _ k (proj1 retrain_example))
      (eq_ind _ (fun l => In k (map r_user l)) Hk _ (app_nil_r t1_rows))). }
  split; [reflexivity|]. split.
  { exists (mkRow 10 3 3 1, 2). split; [vm_compute; auto|reflexivity]. }
  split; [vm_compute; reflexivity|].
  do 2 eexists. split; [vm_compute; reflexivity|]. split; [vm_compute; reflexivity|]. split; reflexivity.
Qed.
