(** Properties C01-C06: id mappings, re-indexing and test selection. *)
From Coq Require Import ZArith List Bool Lia.
From Verif Require Import Prelude DataPrep_model DataPrep_spec DataPrep_proofs DataPrep_main.
Import ListNotations.
Open Scope Z_scope.

(** C01 *)
Theorem mapping_struct_bijection_iff : forall (values : list Z) (start : Z),
  let m := get_cont_mapping_struct values start in
  n_indices m = Z.of_nat (length values)
  /\ (contiguous_bijection (f_of m) (g_of m) start (n_indices m) <-> NoDup values)
  /\ (NoDup values -> forall i x, nth_error values i = Some x ->
        f_of m x = Some (start + Z.of_nat i) /\ g_of m (start + Z.of_nat i) = Some x).
Proof. exact mapping_struct_bijection_main. Qed.
Print Assumptions mapping_struct_bijection_iff.

Example mapping_struct_example :
  let m := get_cont_mapping_struct [40; 7; 12] 5 in
  f_of m 7 = Some 6 /\ g_of m 6 = Some 7 /\ n_indices m = 3 /\ f_of m 5 = None.
Proof. repeat split. Qed.

Example mapping_struct_duplicate :
  let m := get_cont_mapping_struct [40; 7; 40] 0 in
  g_of m 0 = Some 40 /\ f_of m 40 = Some 2.
Proof. split; reflexivity. Qed.

(** C02: one extension keeps the bijection exactly when the new ids are
    distinct and unknown. *)
Theorem mapping_extension_iff : forall (m : mapping) (extra : list Z),
  bij m 0 ->
  (bij (update_cont_mapping_struct m extra) 0
   <-> NoDup extra /\ forall x, In x extra -> f_of m x = None).
Proof. exact update_bij_iff. Qed.
Print Assumptions mapping_extension_iff.

(** C02: any history of fresh extensions. *)
Theorem mapping_extension_history : forall (m0 : mapping) (exts : list (list Z)),
  bij m0 0 ->
  NoDup (concat exts) -> (forall x, In x (concat exts) -> f_of m0 x = None) ->
  let m := fold_left update_cont_mapping_struct exts m0 in
  bij m 0
  /\ n_indices m = n_indices m0 + Z.of_nat (length (concat exts))
  /\ (forall k v, f_of m0 k = Some v -> f_of m k = Some v)
  /\ (forall i x, nth_error (concat exts) i = Some x ->
        f_of m x = Some (n_indices m0 + Z.of_nat i))
  /\ (forall k, f_of m0 k = None -> ~ In k (concat exts) -> f_of m k = None).
Proof. exact extension_history. Qed.
Print Assumptions mapping_extension_history.

Example mapping_extension_example :
  let m0 := get_cont_mapping_struct [40; 7] 0 in
  let m := fold_left update_cont_mapping_struct [[9; 1]; []; [100]] m0 in
  bij m0 0
  /\ NoDup (concat [[9; 1]; []; [100]])
  /\ map (f_of m) [40; 7; 9; 1; 100; 55] = [Some 0; Some 1; Some 2; Some 3; Some 4; None].
Proof.
  split; [apply get_bij_iff; repeat constructor; simpl; intuition congruence|].
  split; [repeat constructor; simpl; intuition congruence|reflexivity].
Qed.

(** C03 *)
Theorem reindex_invertible : forall df : list row,
  exists df' ms,
    get_df_with_updated_indices df = Ok (df', ms)
    /\ Forall2 (reindexed (f_of (m_users ms)) (f_of (m_items ms))
                          (g_of (m_users ms)) (g_of (m_items ms))) df df'
    /\ bij (m_users ms) 0 /\ bij (m_items ms) 0
    /\ n_indices (m_users ms) = Z.of_nat (ndistinct (map r_user df))
    /\ n_indices (m_items ms) = Z.of_nat (ndistinct (map r_item df))
    /\ (forall pre r post, df = pre ++ r :: post -> ~ In (r_user r) (map r_user pre) ->
          f_of (m_users ms) (r_user r) = Some (Z.of_nat (ndistinct (map r_user pre))))
    /\ (forall pre r post, df = pre ++ r :: post -> ~ In (r_item r) (map r_item pre) ->
          f_of (m_items ms) (r_item r) = Some (Z.of_nat (ndistinct (map r_item pre)))).
Proof. exact reindex_invertible_main. Qed.
Print Assumptions reindex_invertible.

Example reindex_example :
  get_df_with_updated_indices [mkRow 9 50 1 1; mkRow 4 51 2 3; mkRow 9 51 3 2]
  = Ok ([mkRow 0 0 1 1; mkRow 1 1 2 3; mkRow 0 1 3 2],
        mkMappings (mkMapping [(9, 0); (4, 1)] [(0, 9); (1, 4)] 2)
                   (mkMapping [(50, 0); (51, 1)] [(0, 50); (1, 51)] 2)).
Proof. reflexivity. Qed.

(** C04 *)
Theorem reindex_append_stable : forall (df ext df1 df2 : list row) (ms1 ms2 : mappings),
  get_df_with_updated_indices df = Ok (df1, ms1) ->
  get_df_with_updated_indices (df ++ ext) = Ok (df2, ms2) ->
  (forall k v, f_of (m_users ms1) k = Some v -> f_of (m_users ms2) k = Some v)
  /\ (forall k v, f_of (m_items ms1) k = Some v -> f_of (m_items ms2) k = Some v)
  /\ firstn (length df) df2 = df1.
Proof. exact reindex_append_stable_main. Qed.
Print Assumptions reindex_append_stable.

(** C05 *)
Theorem map_df_columns_spec : forall (df : list row) (ms : mappings),
  bij (m_users ms) 0 -> bij (m_items ms) 0 ->
  (map_df_columns df ms = Err KeyError <-> exists r, In r df /\ known ms r = false)
  /\ (forall e, map_df_columns df ms = Err e -> e = KeyError)
  /\ (forall df', map_df_columns df ms = Ok df' ->
        Forall2 (reindexed (f_of (m_users ms)) (f_of (m_items ms))
                           (g_of (m_users ms)) (g_of (m_items ms))) df df').
Proof. exact map_df_columns_main. Qed.
Print Assumptions map_df_columns_spec.

Example map_df_columns_both_sides :
  let ms := mkMappings (get_cont_mapping_struct [9; 4] 0) (get_cont_mapping_struct [50] 0) in
  map_df_columns [mkRow 4 50 7 1] ms = Ok [mkRow 1 0 7 1]
  /\ map_df_columns [mkRow 4 50 7 1; mkRow 9 51 8 1] ms = Err KeyError.
Proof. split; reflexivity. Qed.

(** C06 *)
Theorem test_selection_spec : forall (df : list row) (ms : mappings),
  bij (m_users ms) 0 -> bij (m_items ms) 0 ->
  exists sel,
    get_users_to_recommend_test_items df ms = (map r_user sel, map r_item sel)
    /\ FirstPerKey r_user [] (filter (known ms) df) sel
    /\ NoDup (map r_user sel)
    /\ (forall u, In u (map r_user sel) <-> exists r, In r df /\ r_user r = u /\ known ms r = true)
    /\ (forall r, In r sel -> In r df /\ known ms r = true).
Proof. exact test_selection_main. Qed.
Print Assumptions test_selection_spec.

Example test_selection_example :
  let ms := mkMappings (get_cont_mapping_struct [9; 4] 0) (get_cont_mapping_struct [50; 51] 0) in
  get_users_to_recommend_test_items
    [mkRow 4 77 1 1; mkRow 4 51 2 1; mkRow 8 50 3 1; mkRow 9 50 4 1; mkRow 4 50 5 1] ms
  = ([4; 9], [51; 50]).
Proof. reflexivity. Qed.
