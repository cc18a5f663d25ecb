(** Properties C07-C11: sequential histories, delta tensors, cropping. *)
From Coq Require Import ZArith List Bool Lia Sorted.
From Verif Require Import Prelude DataPrep_model DataPrep_spec History_model History_spec History_main.
Import ListNotations.
Open Scope Z_scope.

(** C07 *)
Theorem history_is_last_L : forall (batches : list (list triple)) (L : nat),
  let h := fold_left (fun h b => update_user_seq_history b h L) batches [] in
  h = update_user_seq_history (concat batches) [] L
  /\ forall u,
     dget u (hist_lists h)
     = match items_of u (concat batches) with
       | [] => None
       | is => Some (lastn L (repeat PAD_VALUE L ++ is))
       end.
Proof. exact history_is_last_L_main. Qed.
Print Assumptions history_is_last_L.

Example history_example :
  let h := fold_left (fun h b => update_user_seq_history b h 3)
             [[(0, 10, 0); (0, 11, 1)]; [(1, 12, 0)]; [(0, 13, 0); (0, 14, 1)]] [] in
  hist_lists h = [(0, [11; 13; 14]); (1, [-1; -1; 12])].
Proof. reflexivity. Qed.

(** C08 *)
Theorem delta_is_new_minus_old : forall h_new h_old : dict (list Z),
  NoDup (dkeys h_new) ->
  (forall u l, dget u h_old = Some l ->
     exists l', dget u h_new = Some l' /\ length l' = length l) ->
  (forall c, cell c (calculate_delta h_new h_old) = hist_cell c h_new - hist_cell c h_old)
  /\ NoDup (map fst (calculate_delta h_new h_old))
  /\ (forall c v, In (c, v) (calculate_delta h_new h_old) ->
        (v = 1 \/ v = -1) /\ t_item c <> PAD_VALUE).
Proof. exact delta_is_difference_main. Qed.
Print Assumptions delta_is_new_minus_old.

Example delta_example :
  calculate_delta [(0, [11; 13; 14]); (1, [-1; 12])] [(0, [-1; 13; 11])]
  = [((0, 11, 0), 1); ((0, 14, 2), 1); ((0, 11, 2), -1); ((1, 12, 1), 1)].
Proof. reflexivity. Qed.

(** C09 *)
Theorem deltas_telescope : forall (L : nat) (chunks0 chunks : list (list triple)),
  let h0 := fold_left (fun h b => update_user_seq_history b h L) chunks0 [] in
  let '(h, deltas) := stream_deltas L h0 chunks in
  forall c, cell c deltas = hist_cell c (hist_lists h) - hist_cell c (hist_lists h0).
Proof. exact deltas_telescope_main. Qed.
Print Assumptions deltas_telescope.

Example telescope_example :
  let '(h, d) := stream_deltas 2 [] [[(0, 5, 0)]; [(0, 6, 0); (1, 5, 0)]; [(0, 7, 0)]] in
  hist_lists h = [(0, [6; 7]); (1, [-1; 5])]
  /\ map (fun c => cell c d) [(0, 5, 1); (0, 5, 0); (0, 6, 0); (0, 7, 1); (1, 5, 1)] = [0; 0; 1; 1; 1].
Proof. vm_compute. split; reflexivity. Qed.

(** C10 *)
Theorem crop_keeps_latest : forall (df : list row) (L : nat) (sort_bool : bool),
  (1 <= L)%nat -> df <> [] ->
  exists out,
    get_df_with_cropped_pos_column df L sort_bool = Ok out
    /\ StronglySorted Z.le (map (fun p => r_user (p_row p)) out)
    /\ forall u, exists x,
        (if sort_bool then StableSorted r_ts (rows_of u df) x else x = rows_of u df)
        /\ filter (fun p => r_user (p_row p) =? u) out
           = combine (lastn L x) (zrange (Nat.min (length x) L)).
Proof. exact History_proofs.crop_main. Qed.
Print Assumptions crop_keeps_latest.

Theorem crop_zero_length_raises : forall (df : list row) (sort_bool : bool),
  df <> [] -> get_df_with_cropped_pos_column df 0 sort_bool = Err ValueError.
Proof. exact History_proofs.crop_zero. Qed.
Print Assumptions crop_zero_length_raises.

Example crop_example :
  let df := [mkRow 7 1 5 1; mkRow 3 2 9 1; mkRow 7 3 2 1; mkRow 7 4 5 1] in
  get_df_with_cropped_pos_column df 2 true
  = Ok [(mkRow 3 2 9 1, 0); (mkRow 7 1 5 1, 0); (mkRow 7 4 5 1, 1)]
  /\ get_df_with_cropped_pos_column df 2 false
  = Ok [(mkRow 3 2 9 1, 0); (mkRow 7 3 2 1, 0); (mkRow 7 4 5 1, 1)].
Proof. split; reflexivity. Qed.

(** C11: a user of the training table. *)
Theorem training_tensor_matches_history_iff :
  forall (df : list row) (L : nat) (s : bool) (out : list prow) (td : train_data) (u ui : Z),
  get_df_with_cropped_pos_column df L s = Ok out ->
  tdrec_prepare out [] L = Ok td ->
  (forall r, In r df -> r_rel r = 1) ->
  f_of (m_users (td_mappings td)) u = Some ui ->
  forall chunks : list (list triple),
  let '(h, deltas) := stream_deltas L (td_seq td) chunks in
  (forall i p, cell (ui, i, p) (combine (td_inds td) (td_vals td) ++ deltas)
               = hist_cell (ui, i, p) (hist_lists h))
  <-> (L <= length (rows_of u df))%nat.
Proof. exact training_vs_history_main. Qed.
Print Assumptions training_tensor_matches_history_iff.

(** C11: an index that belongs to no training user (users arriving later). *)
Theorem training_tensor_matches_history_later_user :
  forall (df : list row) (L : nat) (s : bool) (out : list prow) (td : train_data) (ui : Z),
  get_df_with_cropped_pos_column df L s = Ok out ->
  tdrec_prepare out [] L = Ok td ->
  g_of (m_users (td_mappings td)) ui = None ->
  forall chunks : list (list triple),
  let '(h, deltas) := stream_deltas L (td_seq td) chunks in
  forall i p, cell (ui, i, p) (combine (td_inds td) (td_vals td) ++ deltas)
              = hist_cell (ui, i, p) (hist_lists h).
Proof. exact training_vs_history_new_main. Qed.
Print Assumptions training_tensor_matches_history_later_user.

(** User 9 has one interaction, user 4 has two; history length 2. *)
Example training_example :
  exists out td,
    get_df_with_cropped_pos_column
      [mkRow 9 50 1 1; mkRow 4 51 2 1; mkRow 4 50 3 1] 2 true = Ok out
    /\ tdrec_prepare out [] 2 = Ok td
    /\ td_inds td = [(0, 0, 0); (0, 1, 1); (1, 1, 0)]
    /\ hist_lists (td_seq td) = [(0, [0; 1]); (1, [-1; 1])]
    /\ f_of (m_users (td_mappings td)) 9 = Some 1.
Proof. do 2 eexists. repeat split. Qed.
