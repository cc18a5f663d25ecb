(** Model of /repo/source/models/tdrec.py (train, _recommend_user),
    /repo/source/models/tirec.py and /repo/source/models/tirec_accelerated.py:
    bookkeeping of the sequential models.  A factor matrix is represented by the
    list of the owners of its rows: entry [r] of [ti_urows] is the internal user id
    whose data row [r] of [u] was computed from. *)
From Coq Require Import ZArith List Bool Lia.
From Verif Require Import Prelude DataPrep_model History_model Recommend_model Psi_model.
Import ListNotations.
Open Scope Z_scope.

(** The three update procedures: TIRec.update (tirec.py:281-314), TIRecA.update
    with [_nu_ni_process_integrator] False (default) and True
    (tirec_accelerated.py:335-379). *)
Inductive variant := VTIRec | VTIRecA | VTIRecAInt.

(** One call of [update_factors_by_mode] on non-empty data: mode, row counts of
    [u] and [v] just before it, the entries as selected (internal ids), and the
    entries after [_map_to_local]. *)
Record ti_step := mkTiStep {
  ts_mode : mode; ts_nu : Z; ts_ni : Z; ts_entries : list entry; ts_local : list entry }.

(** Attributes of a model object. *)
Record ti_state := mkTi {
  ti_maps : mappings;
  ti_urows : list Z;
  ti_irows : list Z;
  ti_history : list (Z * Z);
  ti_seq : seq_history;
  ti_log : list ti_step }.

(** source/rp_hooi.py:14-20 [tucker_rank_is_valid]. *)
Definition tucker_rank_is_valid (rank : Z * Z * Z) : bool :=
  let '(r0, r1, r2) := rank in
  (r0 <=? r1 * r2) && (r1 <=? r0 * r2) && (r2 <=? r0 * r1).

(** source/models/tdrec.py:166-219 [TDRec.train].  [ga_satf] (rp_hooi.py:167-264):
    RuntimeError for an invalid rank (line 30), ValueError when a rank exceeds its
    dimension (reshape, line 248) or the attention matrix (L x L) does not fit the
    position factor (line 244).  Simplification: n_iter >= 1, positive ranks. *)
Definition tdrec_train (L : nat) (rank : Z * Z * Z) (data : list prow) (seq : seq_history)
  : res ti_state :=
  do td <- tdrec_prepare data seq L;
  let '(n0, n1, n2) := td_shape td in
  let '(r0, r1, r2) := rank in
  if negb (tucker_rank_is_valid rank) then Err RuntimeError
  else if (r0 <=? n0) && (r1 <=? n1) && (r2 <=? n2) && (n2 =? Z.of_nat L)
  then Ok (mkTi (td_mappings td) (zrange (Z.to_nat n0)) (zrange (Z.to_nat n1))
                (td_history td) (td_seq td) [])
  else Err ValueError.

(** source/models/tirec.py:140-144 and 147-150: distinct ids of a column that the
    mapping does not know. *)
Definition new_entities (m : mapping) (values : list Z) : list Z :=
  filter (fun e => negb (dmem e (old2new m))) (unique values).

(** source/models/tirec.py:130-157 [preprocess_raw_input_data]; returns the new
    mappings, the mapped chunk and the internal ids of the new users and items. *)
Definition preprocess_raw_input_data (L : nat) (ms : mappings) (data : list row) (sort_bool : bool)
  : res (mappings * list prow * list Z * list Z) :=
  do chunk <- get_df_with_cropped_pos_column data L sort_bool;
  let new_users := new_entities (m_users ms) (map (fun p => r_user (p_row p)) chunk) in
  let mu := update_cont_mapping_struct (m_users ms) new_users in
  let new_items := new_entities (m_items ms) (map (fun p => r_item (p_row p)) chunk) in
  let mi := update_cont_mapping_struct (m_items ms) new_items in
  do nu <- mapM (fun e => getitem (old2new mu) e) new_users;
  do ni <- mapM (fun e => getitem (old2new mi) e) new_items;
  do rows <- map_df_columns (map p_row chunk) (mkMappings mu mi);
  Ok (mkMappings mu mi, combine rows (map p_pos chunk), nu, ni).

Definition e_user (e : entry) : Z := t_user (fst e).
Definition e_item (e : entry) : Z := t_item (fst e).
Definition e_pos (e : entry) : Z := t_pos (fst e).
Definition set_e_user (e : entry) (u : Z) : entry := ((u, e_item e, e_pos e), snd e).
Definition set_e_item (e : entry) (i : Z) : entry := ((e_user e, i, e_pos e), snd e).

(** source/models/tirec.py:316-352 [_get_divide_inds_array_mask] (identical copy in
    tirec_accelerated.py:387-422): selected rows, mask, remaining new users and
    new items. *)
Definition divide_inds (inds : list entry) (by_ : mode) (new_users new_items : list Z)
  : list entry * list bool * list Z * list Z :=
  let old_u e := negb (memZ (e_user e) new_users) in
  let old_i e := negb (memZ (e_item e) new_items) in
  let drop l processed := filter (fun x => negb (memZ x (np_unique processed))) l in
  match by_ with
  | MNewUsers =>
    let mask := map (fun e => negb (old_u e) && old_i e) inds in
    let masked := select mask inds in
    (masked, mask, drop new_users (map e_user masked), new_items)
  | MNewItems =>
    let mask := map (fun e => old_u e && negb (old_i e)) inds in
    let masked := select mask inds in
    (masked, mask, new_users, drop new_items (map e_item masked))
  | MOld =>
    let mask := map (fun e => old_u e && old_i e) inds in
    (select mask inds, mask, new_users, new_items)
  | MNew =>
    let mask := map (fun e => negb (old_u e) && negb (old_i e)) inds in
    let masked := select mask inds in
    (masked, mask, drop new_users (map e_user masked), drop new_items (map e_item masked))
  end.

(** source/models/tirec.py:177-178 [_get_local_map]. *)
Definition get_local_map (values : list Z) : dict Z :=
  old2new (get_cont_mapping_struct (np_unique values) 0).

(** source/models/tirec.py:180-183 [_map_to_local] for column 0 and column 1. *)
Definition map_to_local_u (data : list entry) : res (list entry) :=
  let m := get_local_map (map e_user data) in
  mapM (fun e => do u <- getitem m (e_user e); Ok (set_e_user e u)) data.
Definition map_to_local_i (data : list entry) : res (list entry) :=
  let m := get_local_map (map e_item data) in
  mapM (fun e => do i <- getitem m (e_item e); Ok (set_e_item e i)) data.

(** All coordinates inside a shape. *)
Definition in_shape (n0 n1 n2 : Z) (data : list entry) : bool :=
  forallb (fun e => (0 <=? e_user e) && (e_user e <? n0) && (0 <=? e_item e) && (e_item e <? n1)
                    && (0 <=? e_pos e) && (e_pos e <? n2)) data.

(** source/models/tirec.py:185-279 [process_data_for_calculations], [_updater],
    [update_factors_by_mode] (tirec_accelerated.py:191-226, 264-317).  Coordinates
    outside the shape: ValueError from coo_matrix in unfold_sparse; in the numba
    kernels an unchecked access (OutOfBounds; modelled for 'old' and 'new').
    TIRec's incremental SVD needs no more new vectors than rows of the unfolding
    (source/psi.py:164-176).  Row owners: the j-th appended row belongs to the id
    with local index j (psi.py:169-171, tucker_integrator.py:281-285,
    tirec_accelerated.py:233-239).  LinAlgError is not modelled. *)
Definition update_factors (v : variant) (L : nat) (st : ti_state) (data : list entry) (md : mode)
  : res ti_state :=
  match data with
  | [] => Ok st
  | _ =>
    let nu := Z.of_nat (length (ti_urows st)) in
    let ni := Z.of_nat (length (ti_irows st)) in
    let lz := Z.of_nat L in
    let done urows irows loc :=
      Ok (mkTi (ti_maps st) urows irows (ti_history st) (ti_seq st)
               (ti_log st ++ [mkTiStep md nu ni data loc])) in
    match md with
    | MNewUsers =>
      do loc <- map_to_local_u data;
      let n := Z.of_nat (length (np_unique (map e_user data))) in
      if in_shape n ni lz loc then
        match v with
        | VTIRec => if n <=? ni * lz
                    then done (ti_urows st ++ np_unique (map e_user data)) (ti_irows st) loc
                    else Err ValueError
        | _ => done (ti_urows st ++ np_unique (map e_user data)) (ti_irows st) loc
        end
      else Err ValueError
    | MNewItems =>
      do loc <- map_to_local_i data;
      let n := Z.of_nat (length (np_unique (map e_item data))) in
      if in_shape nu n lz loc then
        match v with
        | VTIRec => if n <=? nu * lz
                    then done (ti_urows st) (ti_irows st ++ np_unique (map e_item data)) loc
                    else Err ValueError
        | _ => done (ti_urows st) (ti_irows st ++ np_unique (map e_item data)) loc
        end
      else Err ValueError
    | MOld =>
      if in_shape nu ni lz data then done (ti_urows st) (ti_irows st) data else Err OutOfBounds
    | MNew =>
      do loc0 <- map_to_local_u data;
      do loc <- map_to_local_i loc0;
      if in_shape (Z.of_nat (length (np_unique (map e_user data))))
                  (Z.of_nat (length (np_unique (map e_item data)))) lz loc
      then done (ti_urows st ++ np_unique (map e_user data))
                (ti_irows st ++ np_unique (map e_item data)) loc
      else Err OutOfBounds
    end
  end.

(** Loop body of source/models/tirec.py:304-309 (tirec_accelerated.py:343-348);
    the accumulator is (model, left_data, new_users, new_items). *)
Definition ti_loop_step (v : variant) (L : nat)
  (acc : res (ti_state * list entry * list Z * list Z)) (md : mode)
  : res (ti_state * list entry * list Z * list Z) :=
  do '(st, left_data, nu, ni) <- acc;
  let '(prepared, mask, nu', ni') := divide_inds left_data md nu ni in
  do st' <- update_factors v L st prepared md;
  Ok (st', select (map negb mask) left_data, nu', ni').

(** source/models/tirec.py:297-311, tirec_accelerated.py:335-382.  [np.concatenate]
    of line 302 raises ValueError (AxisError) when the delta is empty, because
    [np.array([])] is one-dimensional. *)
Definition ti_update (v : variant) (L : nat) (st : ti_state) (data : list row) (sort_bool : bool)
  : res ti_state :=
  do '(ms, chunk, nu, ni) <- preprocess_raw_input_data L (ti_maps st) data sort_bool;
  let '(seq', delta) := get_train_tensor L (ti_seq st) (map triple_of chunk) in
  match delta with
  | [] => Err ValueError
  | _ =>
    let st0 := mkTi ms (ti_urows st) (ti_irows st) (ti_history st) seq' (ti_log st) in
    do st1 <-
      match v with
      | VTIRec =>
        do '(s, _, _, _) <- fold_left (ti_loop_step v L) [MNew; MNewUsers; MNewItems; MOld]
                              (Ok (st0, delta, nu, ni));
        Ok s
      | VTIRecA =>
        do '(s, _, nu', ni') <- fold_left (ti_loop_step v L) [MNew; MNewUsers; MNewItems]
                                  (Ok (st0, delta, nu, ni));
        let '(_, mask, _, _) := divide_inds delta MNew nu' ni' in
        update_factors v L s (select (map negb mask) delta) MOld
      | VTIRecAInt =>
        let st0' := mkTi ms (ti_urows st ++ nu) (ti_irows st ++ ni) (ti_history st) seq' (ti_log st) in
        update_factors v L st0' delta MOld
      end;
    Ok (mkTi (ti_maps st1) (ti_urows st1) (ti_irows st1)
             (ti_history st1 ++ map (fun p => (r_user (p_row p), r_item (p_row p))) chunk)
             (ti_seq st1) (ti_log st1))
  end.

(** A stream of updates. *)
Definition ti_stream (v : variant) (L : nat) (sort_bool : bool) (st : ti_state)
  (chunks : list (list row)) : res ti_state :=
  fold_left (fun acc c => do s <- acc; ti_update v L s c sort_bool) chunks (Ok st).

(** source/models/tdrec.py:47-67 [_get_pos_items_arrays]: pairs (position, item).
    [seq[-i-1]] for i = 0, 1, ... walks the reversed sequence. *)
Fixpoint pos_items_loop (rseq : list Z) (pos : Z) : list (Z * Z) :=
  match rseq with
  | [] => []
  | x :: r => if pos <? 0 then [] else (pos, x) :: pos_items_loop r (pos - 1)
  end.
Definition get_pos_items_arrays (seq : list Z) (max_seq_len : Z) : list (Z * Z) :=
  pos_items_loop (rev seq) (max_seq_len - 2).

(** source/models/tdrec.py:252-264 [_recommend_user]; [sc] stands for the linear
    algebra of lines 262-263.  An empty index array has dtype float: IndexError;
    so has an item index outside [v].  [w] has [L] rows. *)
Definition ti_scores {A} (L : nat) (st : ti_state) (sc : list (Z * Z) -> list A) (u : Z)
  : res (list A) :=
  match dget u (ti_seq st) with
  | None => Err KeyError
  | Some d =>
    let user_seq := filter (fun x => negb (x =? PAD_VALUE)) (dq_items d) in
    let pi := get_pos_items_arrays user_seq (Z.of_nat L) in
    let n := Z.of_nat (length (ti_irows st)) in
    match pi with
    | [] => Err IndexError
    | _ => if forallb (fun p => (- n <=? snd p) && (snd p <? n)) pi then Ok (sc pi) else Err IndexError
    end
  end.

(** The part of the object that [recommend] reads (source/models/tdrec.py:266-309). *)
Definition ti_rec {A} (L : nat) (st : ti_state) (sc : list (Z * Z) -> list A) : rec_state A :=
  mkRec (ti_maps st) (length (ti_urows st)) (length (ti_irows st)) (ti_history st) (ti_scores L st sc).
