(** Properties C21-C24: bookkeeping of TDRec, TIRec and TIRecA. *)
From Coq Require Import ZArith List Bool Lia Permutation Sorted.
From Verif Require Import Prelude DataPrep_model DataPrep_spec History_model History_spec
  Recommend_model Recommend_spec Psi_model Tirec_model Tirec_spec.
From Verif Require Recommend_main Tirec_assembly Tirec_stream.
Import ListNotations.
Open Scope Z_scope.

(** C21.  The steps that ran and their entries; for TIRec (and TIRecA with
    integrator processing) every delta entry is applied by exactly one step. *)
Theorem tirec_update_consumes_once : forall v L st data s st',
  ti_wf L st -> ti_update v L st data s = Ok st' ->
  let D := ti_delta st st' in
  ti_wf L st'
  /\ exists l, ti_log st' = ti_log st ++ l
     /\ map (fun x => (ts_mode x, ts_entries x)) l = ti_expected v (nusers st) (nitems st) D
     /\ (v <> VTIRecA -> Permutation (applied v l) D).
Proof. exact Tirec_assembly.tirec_partition_main. Qed.
Print Assumptions tirec_update_consumes_once.

(** C21.  When an update succeeds. *)
Theorem tirec_update_outcome : forall v L st data s,
  ti_wf L st ->
  (data = [] -> ti_update v L st data s = Err KeyError)
  /\ (data <> [] -> L = 0%nat -> ti_update v L st data s = Err ValueError)
  /\ (data <> [] -> (1 <= L)%nat ->
      exists ms' chunk nu' ni',
        preprocess_raw_input_data L (ti_maps st) data s = Ok (ms', chunk, nu', ni')
        /\ let D := calculate_delta
                      (hist_lists (update_user_seq_history (map triple_of chunk) (ti_seq st) L))
                      (hist_lists (ti_seq st)) in
           ((exists st', ti_update v L st data s = Ok st')
              <-> D <> [] /\ ti_fits v L (nusers st) (nitems st) D)
           /\ forall e, ti_update v L st data s = Err e -> e = ValueError).
Proof. exact Tirec_assembly.tirec_outcome_main. Qed.
Print Assumptions tirec_update_outcome.

(** C21.  After training and any stream of updates every known user and item owns
    exactly one row, row counts equal mapping sizes, users are known iff they occur
    in the data, items iff they occur in a kept row. *)
Theorem tirec_stream_rows : forall v L rank s table data chunks st0 st,
  get_df_with_cropped_pos_column table L s = Ok data ->
  tdrec_train L rank data [] = Ok st0 -> ti_stream v L s st0 chunks = Ok st ->
  ti_wf L st
  /\ (forall k, tu st k <> None <-> In k (map r_user (table ++ concat chunks)))
  /\ (forall k, tit st k <> None <->
        exists c u kept r, In c (table :: chunks) /\ kept_rows L s c u kept /\ In r kept /\ r_item r = k)
  /\ (forall k x, tu st0 k = Some x -> tu st k = Some x)
  /\ (forall k x, tit st0 k = Some x -> tit st k = Some x)
  /\ rows_aligned st0.
Proof. exact Tirec_stream.tirec_stream_main. Qed.
Print Assumptions tirec_stream_rows.

(** Users 5 and 6, items 10, 20, 30; then user 8 arrives with the new item 90 and
    item 10, user 7 with item 10, and user 5 with the new item 80. *)
Definition demo_table : list row :=
  [mkRow 5 10 1 1; mkRow 5 20 2 1; mkRow 6 20 1 1; mkRow 6 30 2 1].
Definition demo_chunk : list row :=
  [mkRow 8 90 3 1; mkRow 8 10 4 1; mkRow 7 10 5 1; mkRow 5 80 6 1].
Definition demo_data : list prow :=
  match get_df_with_cropped_pos_column demo_table 2 true with Ok d => d | Err _ => [] end.
Definition dummy : ti_state :=
  mkTi (mkMappings (get_cont_mapping_struct [] 0) (get_cont_mapping_struct [] 0)) [] [] [] [] [].
Definition demo_st : ti_state :=
  match tdrec_train 2 (1, 1, 1) demo_data [] with Ok s => s | Err _ => dummy end.
Definition demo_next (v : variant) : ti_state :=
  match ti_update v 2 demo_st demo_chunk true with Ok s => s | Err _ => dummy end.

Example demo_trained :
  get_df_with_cropped_pos_column demo_table 2 true = Ok demo_data
  /\ tdrec_train 2 (1, 1, 1) demo_data [] = Ok demo_st
  /\ ti_wf 2 demo_st.
Proof.
  assert (A : get_df_with_cropped_pos_column demo_table 2 true = Ok demo_data) by (vm_compute; reflexivity).
  assert (B : tdrec_train 2 (1, 1, 1) demo_data [] = Ok demo_st) by (vm_compute; reflexivity).
  split; [exact A|]. split; [exact B|].
  exact (proj1 (tirec_stream_rows VTIRec 2 (1, 1, 1) true demo_table demo_data [] demo_st demo_st A B eq_refl)).
Qed.

Example demo_updated : forall v, ti_update v 2 demo_st demo_chunk true = Ok (demo_next v).
Proof. intros []; vm_compute; reflexivity. Qed.

Example demo_steps :
  map (fun x => (ts_mode x, ts_entries x)) (ti_log (demo_next VTIRec))
  = [ (MNew, [((3, 4, 0), 1)]); (MNewUsers, [((2, 0, 1), 1)]); (MNewItems, [((0, 3, 1), 1)]);
      (MOld, [((0, 1, 0), 1); ((0, 0, 0), -1); ((0, 1, 1), -1); ((3, 0, 1), 1)]) ]
  /\ length (ti_delta demo_st (demo_next VTIRec)) = 7%nat
  /\ map (fun s => n_indices s) [m_users (ti_maps (demo_next VTIRec)); m_items (ti_maps (demo_next VTIRec))] = [4; 5]
  /\ length (ti_urows (demo_next VTIRec)) = 4%nat /\ length (ti_irows (demo_next VTIRec)) = 5%nat.
Proof. vm_compute. repeat split. Qed.

(** A chunk that leaves every window unchanged makes the update raise. *)
Example demo_no_change_raises :
  let again := [mkRow 5 10 7 1; mkRow 5 20 8 1] in
  ti_update VTIRec 2 demo_st again true = Err ValueError
  /\ ti_update VTIRecA 2 demo_st again true = Err ValueError
  /\ ti_update VTIRecAInt 2 demo_st again true = Err ValueError.
Proof. vm_compute. repeat split. Qed.

(** C22.  TIRecA applies every entry of a new user with a new item twice. *)
Theorem tireca_applies_new_twice : forall L st data s st',
  ti_wf L st -> ti_update VTIRecA L st data s = Ok st' ->
  let D := ti_delta st st' in
  let N := q_new (nusers st) (nitems st) D in
  exists l, ti_log st' = ti_log st ++ l
    /\ Permutation (applied VTIRecA l) (D ++ N)
    /\ (forall c, cell c (applied VTIRecA l) = cell c D + cell c N)
    /\ (forall e, In e N -> snd e <> 0 /\ cell (fst e) D = snd e
                            /\ cell (fst e) (applied VTIRecA l) = 2 * snd e)
    /\ ((forall c, cell c (applied VTIRecA l) = cell c D) <-> N = []).
Proof. exact Tirec_assembly.tireca_twice_main. Qed.
Print Assumptions tireca_applies_new_twice.

Example demo_twice :
  q_new (nusers demo_st) (nitems demo_st) (ti_delta demo_st (demo_next VTIRecA)) = [((3, 4, 0), 1)]
  /\ cell (3, 4, 0) (ti_delta demo_st (demo_next VTIRecA)) = 1
  /\ cell (3, 4, 0) (applied VTIRecA (ti_log (demo_next VTIRecA))) = 2.
Proof. vm_compute. repeat split. Qed.

(** C23.  Owners of the appended rows, and when rows stay in id order. *)
Theorem tirec_row_order : forall v L st data s st',
  ti_wf L st -> ti_update v L st data s = Ok st' ->
  let D := ti_delta st st' in
  let N := q_new (nusers st) (nitems st) D in
  let U1 := map e_user N in let U2 := map e_user (q_new_users (nusers st) (nitems st) D) in
  let I1 := map e_item N in let I2 := map e_item (q_new_items (nusers st) (nitems st) D) in
  (v <> VTIRecAInt ->
     (exists a b, ti_urows st' = ti_urows st ++ a ++ b
        /\ StronglySorted Z.lt a /\ StronglySorted Z.lt b
        /\ (forall x, In x a <-> In x U1) /\ (forall x, In x b <-> In x U2))
     /\ (exists a b, ti_irows st' = ti_irows st ++ a ++ b
        /\ StronglySorted Z.lt a /\ StronglySorted Z.lt b
        /\ (forall x, In x a <-> In x I1) /\ (forall x, In x b <-> In x I2)))
  /\ (rows_aligned st' <->
        rows_aligned st
        /\ (v <> VTIRecAInt ->
              first_kind_first (nusers st) U1 (map e_user D)
              /\ first_kind_first (nitems st) I1 (map e_item D))).
Proof. exact Tirec_assembly.tirec_row_order_main. Qed.
Print Assumptions tirec_row_order.

(** C23.  Entries reach the rows of their own user and item: in the three steps
    that append rows if the rows were in id order before, in the last step if they
    are in id order after. *)
Theorem tirec_steps_land : forall v L st data s st',
  ti_wf L st -> ti_update v L st data s = Ok st' ->
  exists l, ti_log st' = ti_log st ++ l
    /\ forall x, In x l -> (rows_aligned st /\ ts_mode x <> MOld \/ rows_aligned st') ->
       Forall2 (own_rows st' x) (ts_entries x) (ts_local x).
Proof. exact Tirec_assembly.tirec_lands_main. Qed.
Print Assumptions tirec_steps_land.

(** C23.  With integrator processing every stream keeps the rows in id order. *)
Theorem tireca_integrator_always_aligned : forall L s chunks st st',
  ti_wf L st -> rows_aligned st -> ti_stream VTIRecAInt L s st chunks = Ok st' ->
  ti_wf L st' /\ rows_aligned st'.
Proof. exact Tirec_assembly.tireca_int_stream_aligned_main. Qed.
Print Assumptions tireca_integrator_always_aligned.

(** C23.  A trained model and one update after which rows are not in id order,
    and an entry of the last step is applied to the row of another user. *)
Theorem tirec_row_order_refuted : forall v, v <> VTIRecAInt ->
  exists L rank s table data chunk st0 st,
    get_df_with_cropped_pos_column table L s = Ok data
    /\ tdrec_train L rank data [] = Ok st0
    /\ ti_update v L st0 chunk s = Ok st
    /\ rows_aligned st0 /\ ~ rows_aligned st
    /\ exists x e lc, In x (ti_log st) /\ In (e, lc) (combine (ts_entries x) (ts_local x))
         /\ ~ own_rows st x e lc.
Proof.
  intros v Nv.
  exists 2%nat, (1, 1, 1), true, demo_table, demo_data, demo_chunk, demo_st, (demo_next v).
  split; [exact (proj1 demo_trained)|]. split; [exact (proj1 (proj2 demo_trained))|].
  split; [exact (demo_updated v)|].
  split; [vm_compute; split; reflexivity|].
  split; [destruct v; [| |congruence]; vm_compute; intros [H _]; discriminate|].
  destruct v; [| |congruence].
  - exists (nth 3 (ti_log (demo_next VTIRec)) (mkTiStep MNew 0 0 [] [])), ((3, 0, 1), 1), ((3, 0, 1), 1).
    split; [vm_compute; tauto|]. split; [vm_compute; tauto|].
    vm_compute. intros [_ [_ [H _]]]. discriminate.
  - exists (nth 3 (ti_log (demo_next VTIRecA)) (mkTiStep MNew 0 0 [] [])), ((3, 0, 1), 1), ((3, 0, 1), 1).
    split; [vm_compute; tauto|]. split; [vm_compute; tauto|].
    vm_compute. intros [_ [_ [H _]]]. discriminate.
Qed.
Print Assumptions tirec_row_order_refuted.

Example demo_row_order :
  ti_urows (demo_next VTIRec) = [0; 1; 3; 2] /\ ti_irows (demo_next VTIRec) = [0; 1; 2; 4; 3]
  /\ ti_urows (demo_next VTIRecAInt) = [0; 1; 2; 3] /\ ti_irows (demo_next VTIRecAInt) = [0; 1; 2; 3; 4].
Proof. vm_compute. repeat split. Qed.

(** C24.  With filtering on, no item of a row kept by cropping (in training or in
    any update) is recommended. *)
Theorem tirec_never_recommends_kept :
  forall {A} (leb : A -> A -> bool),
    (forall x y z, leb x y = true -> leb y z = true -> leb x z = true) ->
  forall argpart, argpartition_contract leb argpart ->
  forall v L rank s table data chunks st0 st (sc : list (Z * Z) -> list A) users k rows,
    (2 <= L)%nat ->
    get_df_with_cropped_pos_column table L s = Ok data ->
    tdrec_train L rank data [] = Ok st0 -> ti_stream v L s st0 chunks = Ok st ->
    (forall pi, length (sc pi) = length (ti_irows st)) -> (1 <= k)%nat -> (2 <= nitems st) ->
    recommend argpart (ti_rec L st sc) users k true false = Ok rows ->
    Forall2 (fun uid row =>
      length row = Nat.min k (length (ti_irows st))
      /\ forall c kept r, In c (table :: chunks) -> kept_rows L s c uid kept -> In r kept ->
           ~ In (r_item r) row) users rows.
Proof. exact @Tirec_stream.tirec_never_kept_main. Qed.
Print Assumptions tirec_never_recommends_kept.

(** User 5 consumed items 10, 20 and 30; with [L = 2] the row of item 10 is cropped. *)
Definition crop_table : list row :=
  [mkRow 5 10 1 1; mkRow 5 20 2 1; mkRow 5 30 3 1; mkRow 6 10 1 1; mkRow 6 20 2 1].

(** C24.  An item the user has consumed, in a row dropped by cropping, is
    recommended to the user although filtering is on. *)
Theorem tirec_recommends_consumed_refuted :
  exists argpart L rank s table data st (sc : list (Z * Z) -> list Z) uid k row r,
    argpartition_contract Z.leb argpart /\ (2 <= L)%nat
    /\ get_df_with_cropped_pos_column table L s = Ok data
    /\ tdrec_train L rank data [] = Ok st
    /\ (forall pi, length (sc pi) = length (ti_irows st))
    /\ recommend argpart (ti_rec L st sc) [uid] k true false = Ok [row]
    /\ In r table /\ r_user r = uid /\ In (r_item r) row.
Proof.
  exists Recommend_main.argpart_sorted, 2%nat, (1, 1, 1), true, crop_table.
  exists (match get_df_with_cropped_pos_column crop_table 2 true with Ok d => d | Err _ => [] end).
  exists (match tdrec_train 2 (1, 1, 1) (match get_df_with_cropped_pos_column crop_table 2 true with Ok d => d | Err _ => [] end) []
          with Ok s => s | Err _ => dummy end).
  exists (fun _ => [3; 4; 5]), 5, 1%nat, [10], (mkRow 5 10 1 1).
  split; [exact Recommend_main.argpart_sorted_contract|]. split; [lia|].
  split; [vm_compute; reflexivity|]. split; [vm_compute; reflexivity|].
  split; [intros; vm_compute; reflexivity|]. split; [vm_compute; reflexivity|].
  split; [left; reflexivity|]. split; [reflexivity|left; reflexivity].
Qed.
Print Assumptions tirec_recommends_consumed_refuted.

(** The hypotheses of the positive statement are met: after the demo update user 8
    (kept items 90 and 10) receives the three other items. *)
Example tirec_never_recommends_kept_example :
  ti_stream VTIRec 2 true demo_st [demo_chunk] = Ok (demo_next VTIRec)
  /\ kept_rows 2 true demo_chunk 8 [mkRow 8 90 3 1; mkRow 8 10 4 1]
  /\ recommend Recommend_main.argpart_sorted (ti_rec 2 (demo_next VTIRec) (fun _ => [5; 4; 3; 2; 1])) [8] 3 true false
     = Ok [[20; 30; 80]].
Proof.
  split; [vm_compute; reflexivity|]. split; [|vm_compute; reflexivity].
  exists [mkRow 8 90 3 1; mkRow 8 10 4 1]. split; [|reflexivity].
  split; [|split].
  - repeat constructor; vm_compute; discriminate.
  - apply Permutation_refl.
  - intros k. reflexivity.
Qed.
