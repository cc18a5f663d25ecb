(** Model of /repo/source/models/svd.py (train) and /repo/source/models/psi.py:
    bookkeeping of the SVD/PSI models.  Factor matrices are represented by their
    row counts; the matrices handed to the linear algebra routines are kept in a
    log (their numerical effect is the subject of the LinAlg files). *)
From Coq Require Import ZArith List Bool Lia.
From Verif Require Import Prelude DataPrep_model Recommend_model.
Import ListNotations.
Open Scope Z_scope.

(** The [mode] strings of source/models/psi.py:179. *)
Inductive mode := MNew | MNewUsers | MNewItems | MOld.

(** source/models/psi.py:36-41: [_init_new_embeddings] (None, 0, x > 0) and
    [_nu_ni_process_integrator]. *)
Inductive init_emb := INone | IZero | IRandom.
Record psi_cfg := mkCfg { cf_init : init_emb; cf_integrator : bool }.

(** source/matrix_operations.py:76-84: a matrix given by its shape and its
    coordinate list (row, column, value). *)
Record coo := mkCoo { da_rows : Z; da_cols : Z; da_entries : list (Z * Z * Z) }.

(** One call of [_updater]: mode, row counts of the factors just before it, the
    table it was computed from, and the matrix passed. *)
Record step_log := mkStep {
  sl_mode : mode; sl_users : Z; sl_items : Z; sl_data : list row; sl_da : coo }.

(** Attributes of an SVD/PSI object: mappings, [u.shape[0]], [vt.shape[1]],
    [history] (user index, item index), plus the ghost log of updater calls. *)
Record psi_state := mkPsi {
  ps_maps : mappings;
  ps_n_users : Z;
  ps_n_items : Z;
  ps_history : list (Z * Z);
  ps_log : list step_log }.

(** coo_matrix: ValueError when a coordinate is outside the shape. *)
Definition mk_mapped (vals : list Z) (rows cols : list Z) (nr nc : Z) : res coo :=
  if forallb (fun r => (0 <=? r) && (r <? nr)) rows && forallb (fun c => (0 <=? c) && (c <? nc)) cols
  then Ok (mkCoo nr nc (combine (combine rows cols) vals))
  else Err ValueError.

(** source/models/psi.py:52-55 [_add_new_entities_and_get_local_map]; returns the
    extended mapping and the local map. *)
Definition add_new_entities (m : mapping) (values : list Z) : mapping * dict Z :=
  let new_entities := unique values in
  (update_cont_mapping_struct m new_entities,
   old2new (get_cont_mapping_struct new_entities 0)).

Definition dlen {V} (d : dict V) : Z := Z.of_nat (length d).

(** source/models/psi.py:57-84 [process_data_for_calculations]; returns the new
    mappings and the matrix. *)
Definition process_data (st : psi_state) (data : list row) (md : mode) : res (mappings * coo) :=
  let ms := ps_maps st in
  match md with
  | MNewUsers =>
    let '(mu, col_map) := add_new_entities (m_users ms) (map r_user data) in
    do rows <- mapM (fun r => getitem (old2new (m_items ms)) (r_item r)) data;
    do cols <- mapM (fun r => getitem col_map (r_user r)) data;
    do da <- mk_mapped (map r_rel data) rows cols (ps_n_items st) (dlen col_map);
    Ok (mkMappings mu (m_items ms), da)
  | MNewItems =>
    let '(mi, col_map) := add_new_entities (m_items ms) (map r_item data) in
    do rows <- mapM (fun r => getitem (old2new (m_users ms)) (r_user r)) data;
    do cols <- mapM (fun r => getitem col_map (r_item r)) data;
    do da <- mk_mapped (map r_rel data) rows cols (ps_n_users st) (dlen col_map);
    Ok (mkMappings (m_users ms) mi, da)
  | MOld =>
    do rows <- mapM (fun r => getitem (old2new (m_users ms)) (r_user r)) data;
    do cols <- mapM (fun r => getitem (old2new (m_items ms)) (r_item r)) data;
    do da <- mk_mapped (map r_rel data) rows cols (ps_n_users st) (ps_n_items st);
    Ok (ms, da)
  | MNew =>
    let '(mi, col_map) := add_new_entities (m_items ms) (map r_item data) in
    let '(mu, row_map) := add_new_entities (m_users ms) (map r_user data) in
    do rows <- mapM (fun r => getitem row_map (r_user r)) data;
    do cols <- mapM (fun r => getitem col_map (r_item r)) data;
    do da <- mk_mapped (map r_rel data) rows cols (dlen row_map) (dlen col_map);
    Ok (mkMappings mu mi, da)
  end.

(** source/psi.py:164-176: with more new vectors than rows the QR factor does not
    fit the preallocated block (ValueError). *)
Definition brand_fits (da : coo) : bool := da_cols da <=? da_rows da.

(** source/models/psi.py:139-171 [_updater], effect on the row counts.  The
    appended rows follow the existing ones in the order of the local indices
    (source/psi.py:93-94, 169-171; source/models/psi.py:111-112, 125-128).
    Simplification: LinAlgError of numpy's QR/SVD is not modelled. *)
Definition updater (cfg : psi_cfg) (md : mode) (da : coo) (nu ni : Z) : res (Z * Z) :=
  match md with
  | MNewUsers =>
    match cf_init cfg with
    | INone => if brand_fits da then Ok (nu + da_cols da, ni) else Err ValueError
    | _ => Ok (nu + da_cols da, ni)
    end
  | MNewItems =>
    match cf_init cfg with
    | INone => if brand_fits da then Ok (nu, ni + da_cols da) else Err ValueError
    | _ => Ok (nu, ni + da_cols da)
    end
  | MOld => Ok (nu, ni)
  | MNew => Ok (nu + da_rows da, ni + da_cols da)
  end.

(** source/models/psi.py:173-176 [update_factors_by_mode]. *)
Definition update_factors_by_mode (cfg : psi_cfg) (st : psi_state) (data : list row) (md : mode)
  : res psi_state :=
  match data with
  | [] => Ok st
  | _ =>
    do '(ms, da) <- process_data st data md;
    do '(nu, ni) <- updater cfg md da (ps_n_users st) (ps_n_items st);
    Ok (mkPsi ms nu ni (ps_history st)
          (ps_log st ++ [mkStep md (ps_n_users st) (ps_n_items st) data da]))
  end.

(** source/models/psi.py:221-236 [_get_divide_df_mask]. *)
Definition divide_mask (df : list row) (ms : mappings) (md : mode) : list bool :=
  map (fun r =>
    let old_user := negb (get_or_pad (old2new (m_users ms)) (r_user r) =? -1) in
    let old_item := negb (get_or_pad (old2new (m_items ms)) (r_item r) =? -1) in
    match md with
    | MNewUsers => negb old_user && old_item
    | MNewItems => old_user && negb old_item
    | MOld => old_user && old_item
    | MNew => negb old_user && negb old_item
    end) df.

(** Loop body of source/models/psi.py:188-190; the pair is (model, left_data). *)
Definition loop_step (cfg : psi_cfg) (acc : res (psi_state * list row)) (md : mode)
  : res (psi_state * list row) :=
  do '(st, left_data) <- acc;
  let mask := divide_mask left_data (ps_maps st) md in
  do st' <- update_factors_by_mode cfg st (select mask left_data) md;
  Ok (st', select (map negb mask) left_data).

(** source/models/psi.py:86-98 [_update_history]. *)
Definition update_history (st : psi_state) (data : list row) : res psi_state :=
  do us <- mapM (fun r => getitem (old2new (m_users (ps_maps st))) (r_user r)) data;
  do is <- mapM (fun r => getitem (old2new (m_items (ps_maps st))) (r_item r)) data;
  Ok (mkPsi (ps_maps st) (ps_n_users st) (ps_n_items st) (ps_history st ++ combine us is) (ps_log st)).

(** source/models/psi.py:178-218 [PSI.update]. *)
Definition psi_update (cfg : psi_cfg) (st : psi_state) (data : list row) : res psi_state :=
  do st1 <-
    match cf_init cfg, cf_integrator cfg with
    | INone, false =>
      do '(s, _) <- fold_left (loop_step cfg) [MNew; MNewUsers; MNewItems; MOld] (Ok (st, data));
      Ok s
    | INone, true => Err RuntimeError
    | _, false =>
      do '(s, data_integrator) <- loop_step cfg (Ok (st, data)) MNew;
      do '(s, _) <- fold_left (loop_step cfg) [MNewUsers; MNewItems] (Ok (s, data_integrator));
      update_factors_by_mode cfg s data_integrator MOld
    | _, true =>
      do '(s, _) <- fold_left (loop_step cfg) [MNew; MNewUsers; MNewItems] (Ok (st, data));
      update_factors_by_mode cfg s data MOld
    end;
  update_history st1 data.

(** source/models/svd.py:35-47 [SVD.train].  coo_matrix without a shape takes
    max index + 1; an empty table, or a rank not in 1 .. min(shape)-1 (svds),
    raises ValueError. *)
Definition svd_train (rank : Z) (data : list row) : res psi_state :=
  do '(df, ms) <- get_df_with_updated_indices data;
  match df with
  | [] => Err ValueError
  | _ =>
    let nu := fold_left Z.max (map r_user df) (-1) + 1 in
    let ni := fold_left Z.max (map r_item df) (-1) + 1 in
    if (0 <? rank) && (rank <? Z.min nu ni)
    then Ok (mkPsi ms nu ni (map (fun r => (r_user r, r_item r)) df) [])
    else Err ValueError
  end.

(** A stream of updates. *)
Definition psi_stream (cfg : psi_cfg) (st : psi_state) (chunks : list (list row)) : res psi_state :=
  fold_left (fun acc c => do s <- acc; psi_update cfg s c) chunks (Ok st).

(** The part of the object that [recommend] reads (source/models/svd.py:77-103). *)
Definition psi_rec {A} (st : psi_state) (scores : Z -> list A) : rec_state A :=
  mkRec (ps_maps st) (Z.to_nat (ps_n_users st)) (Z.to_nat (ps_n_items st))
        (ps_history st) (fun u => Ok (scores u)).
