(** C68, C69 and C70: prepared tables, saved data dynamics, new-entities graph. *)
From Coq Require Import ZArith List Bool Sorting.Sorted Sorting.Permutation.
From Verif Require Import Prelude DataPrep_model DataPrep_spec History_model Psi_model Tirec_model
  Pcore_spec Stream_model Stream_spec Tables_model Tables_spec Tables_main Tables_graph.
Import ListNotations.
Open Scope Z_scope.

(** C68: the day of a time is the nearest midnight (at noon the even one), it never
    decreases with time, and it is the calendar day exactly up to noon. *)
Theorem day_is_nearest_midnight :
  forall t : Z,
    nearest_midnight t (round_day t) /\ (forall d, nearest_midnight t d -> d = round_day t)
    /\ (forall t', t <= t' -> round_day t <= round_day t')
    /\ (round_day t = t / 86400 * 86400 <->
        t mod 86400 < 43200 \/ (t mod 86400 = 43200 /\ Z.Even (t / 86400))).
Proof. exact round_day_main. Qed.
Print Assumptions day_is_nearest_midnight.

(** C68: the prepared tables hold the rows of the raw table (ml_20m: the latest [keep]),
    numbered and in time order, ids renumbered in their order (ml_20m: unchanged). *)
Theorem prepared_tables :
  forall (sort_time : list raw -> list raw) (data : list raw),
    sorts_by raw_time sort_time ->
    (let t := prepare_encoded sort_time data in
     chronological t
     /\ exists sorted, Permutation data sorted /\ map tb_time t = map raw_time sorted
        /\ renumbers (map raw_user sorted) (map tb_user t) /\ renumbers (map raw_item sorted) (map tb_item t))
    /\ (forall keep, let t := prepare_ml20m sort_time keep data in
     chronological t
     /\ exists dropped kept, Permutation data (dropped ++ kept) /\ length kept = Nat.min keep (length data)
        /\ (forall x y, In x dropped -> In y kept -> raw_time x <= raw_time y)
        /\ map tb_time t = map raw_time kept /\ map tb_user t = map raw_user kept
        /\ map tb_item t = map raw_item kept).
Proof. exact prepared_main. Qed.
Print Assumptions prepared_tables.

(** C68: an experiment on such a table never sees a later interaction before an earlier
    one: initial rows are not later than stream rows, groups are strictly ordered. *)
Theorem prepared_stream_in_time_order :
  forall (t : list trow) (sort_days : list trow -> list trow) (cut : Z) (hm : option Z),
    chronological t -> sorts_by tb_day sort_days ->
    exists initial stream left,
      prepare_data_for_experiment tb_index tb_day sort_days t cut hm = Ok (initial, stream, left)
      /\ Permutation (initial ++ concat (map snd stream)) t
      /\ (forall x k g y, In x initial -> In (k, g) stream -> In y g -> tb_time x <= tb_time y)
      /\ (forall k g k' g' x y, In (k, g) stream -> In (k', g') stream -> In x g -> In y g' -> k < k' ->
            tb_time x < tb_time y).
Proof. exact prepared_stream_main. Qed.
Print Assumptions prepared_stream_in_time_order.

(** C69: the saved series describe the first groups of the stream, all processed ones but
    the last. *)
Theorem data_dynamics_series :
  forall (A : Type) (index day user : A -> Z) (sort_days : list A -> list A) (data : list A) (cut : Z)
         (hm : option Z) initial stream left (n : nat),
    prepare_data_for_experiment index day sort_days data cut hm = Ok (initial, stream, left) ->
    let saved := data_dynamics (map (fun x => (user (fst x), snd x)) left) n in
    (n = 0%nat \/ stream = [] -> saved = Err IndexError)
    /\ (n <> 0%nat -> stream <> [] ->
        let described := firstn (Nat.min n (length stream) - 1) stream in
        saved = Ok (map (fun g => ndistinct (map user (snd g))) described,
                    map (fun g => length (snd g)) described)).
Proof. exact (fun A index day user => data_dynamics_main index day user). Qed.
Print Assumptions data_dynamics_series.

(** C70: the counts of a chunk: users and items never seen before it, split by whether
    they occur in a row where both are new. *)
Theorem new_entities_graph_counts :
  forall (initial : list row) (pre : list (list row)) (c : list row) (post : list (list row)),
    let users := map r_user (initial ++ concat pre) in
    let items := map r_item (initial ++ concat pre) in
    let series := new_entities_dynamics (unique (map r_user initial)) (unique (map r_item initial)) (pre ++ c :: post) in
    exists n, nth_error series (length pre) = Some n
      /\ nc_users_ni n = ndistinct (map r_user (both_new users items c))
      /\ nc_items_nu n = ndistinct (map r_item (both_new users items c))
      /\ (nc_users n + nc_users_ni n = ndistinct (first_seen users (map r_user c)))%nat
      /\ (nc_items n + nc_items_nu n = ndistinct (first_seen items (map r_item c)))%nat.
Proof. exact graph_counts_main. Qed.
Print Assumptions new_entities_graph_counts.

(** C70: they are the numbers of rows PSI adds in its steps on that chunk. *)
Theorem new_entities_graph_is_psi :
  forall (rank : Z) (initial : list row) (cfg : psi_cfg) (pre : list (list row)) (c : list row)
         (post : list (list row)) (st0 st : psi_state),
    svd_train rank initial = Ok st0 -> psi_stream cfg st0 (pre ++ c :: post) = Ok st ->
    let series := new_entities_dynamics (unique (map r_user initial)) (unique (map r_item initial)) (pre ++ c :: post) in
    exists n s s' l,
      nth_error series (length pre) = Some n
      /\ psi_stream cfg st0 pre = Ok s /\ psi_update cfg s c = Ok s' /\ ps_log s' = ps_log s ++ l
      /\ ps_n_users s' = ps_n_users s + Z.of_nat (nc_users_ni n + nc_users n)
      /\ ps_n_items s' = ps_n_items s + Z.of_nat (nc_items_nu n + nc_items n)
      /\ step_ids r_user MNew l = nc_users_ni n /\ step_ids r_item MNew l = nc_items_nu n
      /\ step_ids r_user MNewUsers l = nc_users n /\ step_ids r_item MNewItems l = nc_items n.
Proof. exact graph_psi_main. Qed.
Print Assumptions new_entities_graph_is_psi.

(** C70: the graph is drawn exactly if the stream has enough chunks. *)
Theorem new_entities_graph_length :
  forall (n : nat) (initial : list row) (chunks : list (list row)),
    ((n <= length chunks)%nat ->
       plot_new_entities n initial chunks
       = Ok (firstn n (new_entities_dynamics (unique (map r_user initial)) (unique (map r_item initial)) chunks)))
    /\ ((length chunks < n)%nat -> plot_new_entities n initial chunks = Err ValueError).
Proof. exact plot_length_main. Qed.
Print Assumptions new_entities_graph_length.

(** C70: for the sequential models the graph is not the number of added rows. *)
Theorem new_entities_graph_is_tirec_refuted :
  exists (L : nat) rank initial chunk kept st st',
    get_df_with_cropped_pos_column initial L true = Ok kept
    /\ tdrec_train L rank kept [] = Ok st /\ ti_update VTIRec L st chunk true = Ok st'
    /\ plot_new_entities 1 initial [chunk] = Ok [mkNew 0 0 0 0]
    /\ length (ti_irows st') = S (length (ti_irows st)).
Proof. exact graph_tirec_refuted_main. Qed.
Print Assumptions new_entities_graph_is_tirec_refuted.

(** Cases.  Noon of 2 January 1970 goes to 3 January, noon of 3 January stays. *)
Example round_day_demo :
  map round_day [86400 + 43199; 86400 + 43200; 86400 + 43201; 2 * 86400 + 43200; 2 * 86400 + 43201]
  = [86400; 2 * 86400; 2 * 86400; 2 * 86400; 3 * 86400].
Proof. vm_compute. reflexivity. Qed.

Definition demo_raw : list raw := [(70, 900, 500000); (50, 700, 100000); (70, 700, 50000)].
Definition demo_sort_time : list raw -> list raw := sort_stable (fun x y => raw_time x <=? raw_time y).
Example demo_sort_time_sorts : sorts_by raw_time demo_sort_time.
Proof.
  intro l. split; [apply Prelude_proofs.sort_stable_perm|].
  assert (S := Prelude_proofs.sort_stable_sorted (fun x y => raw_time x <=? raw_time y)
    (fun x y => Prelude_proofs.Zleb_total (raw_time x) (raw_time y))
    (fun x y z => Prelude_proofs.Zleb_trans (raw_time x) (raw_time y) (raw_time z)) l).
  unfold demo_sort_time. induction S as [|a k S IH F]; constructor; auto.
  eapply Forall_impl; [|exact F]. intros y H. now apply Z.leb_le.
Qed.
Example prepared_demo :
  prepare_encoded demo_sort_time demo_raw
  = [mkT 0 1 0 50000 86400 1; mkT 1 0 0 100000 86400 1; mkT 2 1 1 500000 518400 1]
  /\ prepare_ml20m demo_sort_time 2 demo_raw
     = [mkT 0 50 700 100000 86400 1; mkT 1 70 900 500000 518400 1].
Proof. vm_compute. split; reflexivity. Qed.
Example prepared_stream_demo :
  prepare_data_for_experiment tb_index tb_day (fun l => l) (prepare_encoded demo_sort_time demo_raw) 1 None
  = Ok ([mkT 0 1 0 50000 86400 1],
        [(86400, [mkT 1 0 0 100000 86400 1]); (518400, [mkT 2 1 1 500000 518400 1])],
        [(mkT 1 0 0 100000 86400 1, 86400); (mkT 2 1 1 500000 518400 1, 518400)]).
Proof. vm_compute. reflexivity. Qed.
(** Three days asked for, three in the stream, two described. *)
Example data_dynamics_demo :
  data_dynamics [(5, 1); (5, 1); (6, 1); (7, 2); (8, 3)] 3 = Ok ([2; 1], [3; 1])%nat
  /\ data_dynamics [(5, 1); (5, 1); (6, 1); (7, 2); (8, 3)] 9 = Ok ([2; 1], [3; 1])%nat
  /\ data_dynamics [(5, 1)] 0 = Err IndexError.
Proof. vm_compute. repeat split. Qed.

Definition demo_initial : list row := [mkRow 5 10 1 1; mkRow 5 20 2 1; mkRow 6 10 3 1].
Definition demo_chunks : list (list row) :=
  [[mkRow 5 30 4 1; mkRow 7 10 5 1; mkRow 8 40 6 1; mkRow 8 10 7 1; mkRow 7 40 8 1]; [mkRow 7 40 9 1; mkRow 9 10 9 1]].
Example graph_demo :
  plot_new_entities 2 demo_initial demo_chunks = Ok [mkNew 0 1 2 1; mkNew 1 0 0 0]
  /\ plot_new_entities 3 demo_initial demo_chunks = Err ValueError.
Proof. vm_compute. split; reflexivity. Qed.
Example graph_psi_demo :
  exists st0 st, svd_train 1 demo_initial = Ok st0 /\ psi_stream (mkCfg INone false) st0 demo_chunks = Ok st
    /\ ps_n_users st0 = 2 /\ ps_n_users st = 5 /\ ps_n_items st = 4.
Proof. eexists _, _. split; [vm_compute; reflexivity|]. split; [vm_compute; reflexivity|]. vm_compute. repeat split. Qed.
