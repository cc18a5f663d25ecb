(** Model of /repo/source/data_preparation.py (id mappings, re-indexing, test
    selection). *)
From Coq Require Import ZArith List Bool Lia.
From Verif Require Import Prelude.
Import ListNotations.
Open Scope Z_scope.

(** source/data_preparation.py:17 *)
Definition PAD_VALUE : Z := -1.

(** One row of an interaction table.  source/data_preparation.py:6-11.
    Simplification: columns are integers (ids are integer encoded by the
    preparation scripts; timestamps and relevance are only compared/copied). *)
Record row := mkRow { r_user : Z; r_item : Z; r_ts : Z; r_rel : Z }.

Definition set_user (r : row) (u : Z) : row := mkRow u (r_item r) (r_ts r) (r_rel r).
Definition set_item (r : row) (i : Z) : row := mkRow (r_user r) i (r_ts r) (r_rel r).

(** Mapping struct: the dict with keys old2new, new2old, n_indices.
    source/data_preparation.py:13-15 *)
Record mapping := mkMapping { old2new : dict Z; new2old : dict Z; n_indices : Z }.

(** The two translations a user of a mapping struct can observe:
    [m['old2new'].get(k)] and [m['new2old'].get(v)]. *)
Definition f_of (m : mapping) : Z -> option Z := fun k => dget k (old2new m).
Definition g_of (m : mapping) : Z -> option Z := fun v => dget v (new2old m).

(** User and item mapping structs of a model ([model.mappings]). *)
Record mappings := mkMappings { m_users : mapping; m_items : mapping }.

(** source/data_preparation.py:19-30 [get_cont_mapping_struct].  The dict
    comprehensions are left-to-right assignments. *)
Definition get_cont_mapping_struct (values : list Z) (start : Z) : mapping :=
  let o2n := dupdate [] (map (fun iv => (snd iv, fst iv)) (enumerate start values)) in
  let n2o := dupdate [] (enumerate start values) in
  mkMapping o2n n2o (Z.of_nat (length (dkeys n2o))).

(** source/data_preparation.py:32-39 [update_cont_mapping_struct]; the in-place
    mutation is modelled by returning the new struct. *)
Definition update_cont_mapping_struct (m : mapping) (extra : list Z) : mapping :=
  let e := get_cont_mapping_struct extra (n_indices m) in
  mkMapping (dupdate (old2new m) (old2new e))
            (dupdate (new2old m) (new2old e))
            (n_indices m + n_indices e).

(** [d[x]] for a Python dict. *)
Definition getitem {V} (d : dict V) (k : Z) : res V :=
  match dget k d with Some v => Ok v | None => Err KeyError end.

(** [d.get(x, PAD_VALUE)]. *)
Definition get_or_pad (d : dict Z) (k : Z) : Z :=
  match dget k d with Some v => v | None => PAD_VALUE end.

(** source/data_preparation.py:41-55 [get_df_with_updated_indices] with
    [col_names = (USER_ID, ITEM_ID)], the only use in /repo. *)
Definition get_df_with_updated_indices (df : list row) : res (list row * mappings) :=
  let mu := get_cont_mapping_struct (unique (map r_user df)) 0 in
  do df1 <- mapM (fun r => do u <- getitem (old2new mu) (r_user r); Ok (set_user r u)) df;
  let mi := get_cont_mapping_struct (unique (map r_item df1)) 0 in
  do df2 <- mapM (fun r => do i <- getitem (old2new mi) (r_item r); Ok (set_item r i)) df1;
  Ok (df2, mkMappings mu mi).

(** source/data_preparation.py:57-65 [map_df_columns] with
    [col_names = (USER_ID, ITEM_ID)]. *)
Definition map_df_columns (df : list row) (ms : mappings) : res (list row) :=
  do df1 <- mapM (fun r => do u <- getitem (old2new (m_users ms)) (r_user r); Ok (set_user r u)) df;
  mapM (fun r => do i <- getitem (old2new (m_items ms)) (r_item r); Ok (set_item r i)) df1.

(** source/data_preparation.py:67-76 [get_inds_vals]; [ms = None] leaves ids as
    they are. *)
Definition get_inds_vals (df : list row) (ms : option mappings) : list (Z * Z) * list Z :=
  let inds :=
    match ms with
    | None => map (fun r => (r_user r, r_item r)) df
    | Some ms => map (fun r => (get_or_pad (old2new (m_users ms)) (r_user r),
                                get_or_pad (old2new (m_items ms)) (r_item r))) df
    end in
  (inds, map r_rel df).

(** Index of the first occurrence of [x] ([np.unique(..., return_index=True)]). *)
Fixpoint index_of (x : Z) (l : list Z) : nat :=
  match l with
  | [] => O
  | y :: r => if x =? y then O else S (index_of x r)
  end.

(** source/data_preparation.py:78-81 [mask_first_occurence]: True everywhere
    except at the first occurrence of every value. *)
Definition mask_first_occurence (a : list Z) : list bool :=
  let first_inds := map (fun v => index_of v a) (np_unique a) in
  fold_left (fun m i => set_nth i false m) first_inds (repeat true (length a)).

(** source/data_preparation.py:114-120 [get_known_ui_df_mask]. *)
Definition get_known_ui_df_mask (df : list row) (ms : mappings) : list bool :=
  map (fun r =>
         let u := get_or_pad (old2new (m_users ms)) (r_user r) in
         let i := get_or_pad (old2new (m_items ms)) (r_item r) in
         negb (u =? PAD_VALUE) && negb (i =? PAD_VALUE)) df.

(** source/data_preparation.py:122-129 [get_users_to_recommend_test_items]. *)
Definition get_users_to_recommend_test_items (df : list row) (ms : mappings)
  : list Z * list Z :=
  let inds := fst (get_inds_vals (select (get_known_ui_df_mask df ms) df) None) in
  let mask := map negb (mask_first_occurence (map fst inds)) in
  (map fst (select mask inds), map snd (select mask inds)).
