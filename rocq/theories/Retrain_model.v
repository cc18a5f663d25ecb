(** Model of repeated training on one object: TDRec.train called again
    (source/models/tdrec.py:166-219) and TDRecRe.train
    (source/models/tdrec_reinit.py:100-169), and the growing table of
    source/experiments/dynamical_experiment.py:154-162. *)
From Coq Require Import ZArith List Bool Lia.
From Verif Require Import Prelude DataPrep_model History_model Psi_model Tirec_model.
Import ListNotations.
Open Scope Z_scope.

(** Successive calls of [TDRec.train] on one object: [self.seq_history] is set to
    the empty dict only by [__init__] (tdrec.py:164) and is passed on from call to
    call (tdrec.py:200-204).  Returns what each call prepared. *)
Fixpoint retrain (L : nat) (seq : seq_history) (tables : list (list prow)) : res (list train_data) :=
  match tables with
  | [] => Ok []
  | d :: r =>
    do td <- tdrec_prepare d seq L;
    do tds <- retrain L (td_seq td) r;
    Ok (td :: tds)
  end.

(** source/models/tdrec_reinit.py:141-155: tensor, shape and histories from the
    mapped table. *)
Definition prepare_tensor (rows : list row) (poss : list Z) (ms : mappings) (seq : seq_history) (L : nat)
  : res train_data :=
  let initial := combine rows poss in
  let inds := sort_stable user_pos_leb (map triple_of initial) in
  let vals := map (fun p => r_rel (p_row p)) initial in
  do mu <- maxZ (map t_user inds);
  do mi <- maxZ (map t_item inds);
  do mp <- maxZ (map t_pos inds);
  Ok (mkTrain ms inds vals (mu + 1, mi + 1, mp + 1)
        (map (fun p => (r_user (p_row p), r_item (p_row p))) initial)
        (update_user_seq_history inds seq L)).

(** source/models/tdrec_reinit.py:119-132: the previous mappings extended by the
    ids of the table that they do not know, in order of first appearance. *)
Definition extend_mappings (ms : mappings) (rows : list row) : mappings :=
  mkMappings
    (update_cont_mapping_struct (m_users ms) (new_entities (m_users ms) (map r_user rows)))
    (update_cont_mapping_struct (m_items ms) (new_entities (m_items ms) (map r_item rows))).

(** source/models/tdrec_reinit.py:119-155, first half of [TDRecRe.train];
    [prev = None] when the factors or the mappings are not given. *)
Definition tdrecre_prepare (data : list prow) (seq : seq_history) (L : nat) (prev : option mappings)
  : res train_data :=
  match prev with
  | None => tdrec_prepare data seq L
  | Some ms =>
    let ms' := extend_mappings ms (map p_row data) in
    do rows <- map_df_columns (map p_row data) ms';
    prepare_tensor rows (map p_pos data) ms' seq L
  end.

(** source/models/tdrec_reinit.py:100-169 [TDRecRe.train] given the previous state
    of the object ([prev]: its mappings and the row counts of its factors).
    ga_satf (rp_hooi.py:223-228): RuntimeError for an invalid rank; the slice
    assignment [factors_list[i][:n_rows] = init] raises ValueError when the previous
    factor has more rows than the new shape; the remaining conditions are those of
    [tdrec_train]. *)
Definition tdrecre_train (L : nat) (rank : Z * Z * Z) (data : list prow) (prev : option ti_state)
           (seq : seq_history) : res ti_state :=
  do td <- tdrecre_prepare data seq L (option_map ti_maps prev);
  let '(n0, n1, n2) := td_shape td in
  let '(r0, r1, r2) := rank in
  if negb (tucker_rank_is_valid rank) then Err RuntimeError
  else if (match prev with
           | None => true
           | Some st => (Z.of_nat (length (ti_urows st)) <=? n0)
                        && (Z.of_nat (length (ti_irows st)) <=? n1)
           end)
          && (r0 <=? n0) && (r1 <=? n1) && (r2 <=? n2) && (n2 =? Z.of_nat L)
  then Ok (mkTi (td_mappings td) (zrange (Z.to_nat n0)) (zrange (Z.to_nat n1))
                (td_history td) (td_seq td) [])
  else Err ValueError.

(** source/experiments/dynamical_experiment.py:156-160: drop the position column,
    append the chunk, crop again ([sort_bool] defaults to True). *)
Definition grow_table (concatenated : list prow) (chunk : list row) (L : nat) : res (list prow) :=
  get_df_with_cropped_pos_column (map p_row concatenated ++ chunk) L true.
