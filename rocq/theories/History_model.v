(** Model of /repo/source/ti_data_processing.py and of the data side of
    TDRec.train and TIRec.get_train_tensor. *)
From Coq Require Import ZArith List Bool Lia.
From Verif Require Import Prelude DataPrep_model.
Import ListNotations.
Open Scope Z_scope.

(** [collections.deque] with a fixed maximal length: (maxlen, items). *)
Record deque := mkDeque { dq_maxlen : nat; dq_items : list Z }.

(** [deque.append]: the oldest elements are dropped beyond [maxlen]. *)
Definition dq_append (d : deque) (x : Z) : deque :=
  mkDeque (dq_maxlen d) (lastn (dq_maxlen d) (dq_items d ++ [x])).

(** Sequential history: dict from internal user to deque.
    source/models/tdrec.py:164 *)
Definition seq_history := dict deque.

(** A (user, item, position) triple. *)
Definition triple := (Z * Z * Z)%type.
Definition t_user (t : triple) : Z := fst (fst t).
Definition t_item (t : triple) : Z := snd (fst t).
Definition t_pos (t : triple) : Z := snd t.

(** Body of the loop source/ti_data_processing.py:35-38. *)
Definition push_interaction (L : nat) (h : seq_history) (t : triple) : seq_history :=
  let h1 := if dmem (t_user t) h then h
            else dset (t_user t) (mkDeque L (repeat PAD_VALUE L)) h in
  match dget (t_user t) h1 with
  | Some d => dset (t_user t) (dq_append d (t_item t)) h1
  | None => h1 (* unreachable *)
  end.

(** source/ti_data_processing.py:13-38 [update_user_seq_history]; the in-place
    mutation is modelled by returning the new structure. *)
Definition update_user_seq_history (new : list triple) (h : seq_history) (L : nat)
  : seq_history :=
  fold_left (push_interaction L) new h.

(** One entry of a COO tensor: indices and value. *)
Definition entry := (triple * Z)%type.

(** source/ti_data_processing.py:65-68: entries of a new user. *)
Definition delta_new_user (u : Z) (uh_new : list Z) : list entry :=
  flat_map (fun pi => if negb (snd pi =? PAD_VALUE) then [((u, snd pi, fst pi), 1)] else [])
           (enumerate 0 uh_new).

(** source/ti_data_processing.py:71-79: entries of a known user ([zip] stops at
    the shorter history). *)
Definition delta_old_user (u : Z) (uh_new uh_old : list Z) : list entry :=
  flat_map (fun p =>
      let pos := fst p in let new := fst (snd p) in let old := snd (snd p) in
      if negb (new =? old) then
        (if negb (new =? PAD_VALUE) then [((u, new, pos), 1)] else [])
        ++ (if negb (old =? PAD_VALUE) then [((u, old, pos), -1)] else [])
      else [])
    (enumerate 0 (combine uh_new uh_old)).

(** source/ti_data_processing.py:40-80 [calculate_delta].  Histories are given
    by their item lists; indices and values are kept together as entries. *)
Definition calculate_delta (h_new h_old : dict (list Z)) : list entry :=
  flat_map (fun uh =>
      match dget (fst uh) h_old with
      | None => delta_new_user (fst uh) (snd uh)
      | Some uh_old => delta_old_user (fst uh) (snd uh) uh_old
      end) h_new.

(** [{u: list(v) for u, v in self.seq_history.items()}], also used to read the
    deques of the new history by position. *)
Definition hist_lists (h : seq_history) : dict (list Z) :=
  map (fun ud => (fst ud, dq_items (snd ud))) h.

(** source/models/tirec.py:159-175 [TIRec.get_train_tensor]: returns the updated
    sequential history and the delta tensor. *)
Definition get_train_tensor (L : nat) (h : seq_history) (chunk : list triple)
  : seq_history * list entry :=
  let h' := update_user_seq_history chunk h L in
  (h', calculate_delta (hist_lists h') (hist_lists h)).

(** A table row with a position column. *)
Definition prow := (row * Z)%type.
Definition p_row (p : prow) : row := fst p.
Definition p_pos (p : prow) : Z := snd p.
Definition triple_of (p : prow) : triple :=
  (r_user (fst p), r_item (fst p), snd p).

(** source/ti_data_processing.py:82-90 [add_order_cropped].  With [max_len = 0]
    and a non-empty group line 88 assigns an empty array to the whole array
    (since [a[-0:]] is all of [a]), which cannot be broadcast: ValueError. *)
Definition add_order_cropped (x : list row) (max_len : nat) : res (list prow) :=
  let n := length x in
  if (n <=? max_len)%nat then Ok (combine x (zrange n))
  else match max_len with
       | O => Err ValueError
       | _ => Ok (combine x (repeat PAD_VALUE (n - max_len) ++ zrange max_len))
       end.

(** Sort key of [sort_values(by=[USER_ID, TIMESTAMP])]; multi-key sorts use
    lexsort and are stable. *)
Definition user_ts_leb (a b : row) : bool :=
  (r_user a <? r_user b) || ((r_user a =? r_user b) && (r_ts a <=? r_ts b)).

(** source/ti_data_processing.py:92-106 [get_df_with_cropped_pos_column].
    [groupby.apply] (pandas 2.0, see environment/requirements.txt) concatenates
    the groups in ascending key order.  On an empty table [apply] never calls
    the function, so the position column is missing and line 106 raises
    KeyError.  Simplification: the table has no position column yet (an
    existing one is overwritten, except in the empty-table case). *)
Definition get_df_with_cropped_pos_column (df : list row) (max_seq_len : nat) (sort_bool : bool)
  : res (list prow) :=
  let df := if sort_bool then sort_stable user_ts_leb df else df in
  match df with
  | [] => Err KeyError
  | _ =>
    do groups <- mapM (fun u => add_order_cropped (filter (fun r => r_user r =? u) df) max_seq_len)
                      (np_unique (map r_user df));
    Ok (filter (fun p => negb (p_pos p =? PAD_VALUE)) (concat groups))
  end.

(** Sort key of [sort_values(by=[USER_ID, POSITION_ID])]. *)
Definition user_pos_leb (a b : triple) : bool :=
  (t_user a <? t_user b) || ((t_user a =? t_user b) && (t_pos a <=? t_pos b)).

(** What TDRec.train prepares before calling ga_satf. *)
Record train_data := mkTrain {
  td_mappings : mappings;
  td_inds : list triple;
  td_vals : list Z;
  td_shape : Z * Z * Z;
  td_history : list (Z * Z);
  td_seq : seq_history
}.

(** [inds.max(axis=0)] of one column; ValueError on an empty array. *)
Fixpoint maxZ (l : list Z) : res Z :=
  match l with
  | [] => Err ValueError
  | [x] => Ok x
  | x :: r => do m <- maxZ r; Ok (Z.max x m)
  end.

(** source/models/tdrec.py:185-204, first half of [TDRec.train]; [seq] is the
    sequential history held by the model before the call (it is not reset). *)
Definition tdrec_prepare (data : list prow) (seq : seq_history) (L : nat) : res train_data :=
  do '(rows, ms) <- get_df_with_updated_indices (map p_row data);
  let initial := combine rows (map p_pos data) in
  let inds := sort_stable user_pos_leb (map triple_of initial) in
  let vals := map (fun p => r_rel (p_row p)) initial in
  do mu <- maxZ (map t_user inds);
  do mi <- maxZ (map t_item inds);
  do mp <- maxZ (map t_pos inds);
  Ok (mkTrain ms inds vals (mu + 1, mi + 1, mp + 1)
        (map (fun p => (r_user (p_row p), r_item (p_row p))) initial)
        (update_user_seq_history inds seq L)).

(** All delta entries produced by successive calls of [get_train_tensor]
    (one per TIRec.update, source/models/tirec.py:300), with the final history. *)
Fixpoint stream_deltas (L : nat) (h : seq_history) (chunks : list (list triple))
  : seq_history * list entry :=
  match chunks with
  | [] => (h, [])
  | ch :: r => let '(h1, d) := get_train_tensor L h ch in
               let '(h2, ds) := stream_deltas L h1 r in (h2, d ++ ds)
  end.
