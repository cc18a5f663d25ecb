(** C45, C46 and C60: date grouping, splits and the users of the stability test. *)
From Coq Require Import ZArith QArith List Bool Sorting.Sorted Sorting.Permutation.
From Verif Require Import Prelude Stream_model Stream_spec Stream_group Stream_main.
Import ListNotations.
Open Scope Z_scope.

(** C45: the dates fall into blocks that exceed the minimum as soon as possible and an
    unfinished tail; the labels are those of [date_labels]; and there is a group that
    does not exceed the minimum exactly if the tail is not empty, unless the tail is one
    date and the block before it is one date. *)
Theorem date_grouping :
  forall (counts : list (Z * Z)) (hm : Z),
    increasing (map fst counts) -> (forall x, In x counts -> 0 <= snd x) ->
    exists blocks tail, counts = concat blocks ++ tail /\ Forall (closed hm) blocks /\ unfinished hm tail /\
      get_date_to_group_mapping counts hm = date_labels blocks tail /\
      ((exists d g, In (d, g) (date_labels blocks tail) /\ total (members counts (date_labels blocks tail) g) <= hm) <->
       tail <> [] /\ ~ (exists x y blocks', tail = [x] /\ blocks = blocks' ++ [[y]])).
Proof. exact grouping_main. Qed.
Print Assumptions date_grouping.

(** C45: every date is labelled, with a date not after it, and labels follow the dates,
    so dates of one label are consecutive. *)
Theorem date_labels_in_order :
  forall (counts : list (Z * Z)) (hm : Z),
    increasing (map fst counts) ->
    let m := get_date_to_group_mapping counts hm in
    map fst m = map fst counts /\
    (forall d g, In (d, g) m -> g <= d /\ In g (map fst counts)) /\
    (forall d g d' g', In (d, g) m -> In (d', g') m -> d <= d' -> g <= g').
Proof. exact grouping_order_main. Qed.
Print Assumptions date_labels_in_order.

(** C45: enough actions in total do not make every group exceed the minimum; the repair
    can even split off a group of its own. *)
Theorem date_groups_exceed_minimum_refuted :
  exists (counts : list (Z * Z)) (hm : Z),
    increasing (map fst counts) /\ (forall x, In x counts -> 0 < snd x) /\ hm < total counts /\
    let m := get_date_to_group_mapping counts hm in
    m = [(1, 1); (2, 1); (3, 2)] /\ total (members counts m 1) = 6 /\ total (members counts m 2) = 1 /\ hm = 5.
Proof. exact grouping_refuted_main. Qed.
Print Assumptions date_groups_exceed_minimum_refuted.

(** C46: the call succeeds; initial rows and groups partition the table; groups follow
    each other in time; the remaining rows carry the key of their group. *)
Theorem stream_is_partition :
  forall (A : Type) (index day : A -> Z) (sort_days : list A -> list A) (data : list A) (cut : Z) (hm : option Z),
    sorts_by day sort_days ->
    exists initial stream left,
      prepare_data_for_experiment index day sort_days data cut hm = Ok (initial, stream, left) /\
      initial = filter (fun r => index r <? cut) data /\
      stream_ok day (filter (fun r => negb (index r <? cut)) data) stream left /\
      (hm <> None -> StronglySorted (fun x y => day x <= day y) (concat (map snd stream)) /\
                     concat (map snd stream) = map fst left) /\
      (hm = None -> forall k g, In (k, g) stream -> forall r, In r g -> day r = k).
Proof. exact (fun A index day => prepare_main index day). Qed.
Print Assumptions stream_is_partition.

(** C46: on a table as prepared (rows numbered and in time order) the initial part is a
    prefix and no initial row is later than a stream row. *)
Theorem stream_respects_time :
  forall (A : Type) (index day : A -> Z) (sort_days : list A -> list A) (data : list A) (cut : Z) (hm : option Z),
    sorts_by day sort_days ->
    map index data = zrange (length data) -> StronglySorted (fun x y => day x <= day y) data ->
    exists initial stream left,
      prepare_data_for_experiment index day sort_days data cut hm = Ok (initial, stream, left) /\
      initial = firstn (Z.to_nat cut) data /\
      Permutation (concat (map snd stream)) (skipn (Z.to_nat cut) data) /\
      (forall r k g r', In r initial -> In (k, g) stream -> In r' g -> day r <= day r').
Proof. exact (fun A index day => prepare_time_main index day). Qed.
Print Assumptions stream_respects_time.

(** C46: the train part is what lies strictly before the quantile, the test part the
    rest; the test part of a non-empty table is not empty. *)
Theorem train_test_split_at_quantile :
  forall (A : Type) (day : A -> Z) (data : list A) (q : Q),
    (data <> [] -> (0 <= q)%Q -> (q <= 1)%Q ->
     exists k pivot, order_statistic (map day data) k pivot /\
       (inject_Z (Z.of_nat k) - (1 # 2) <= inject_Z (Z.of_nat (length data) - 1) * q
        <= inject_Z (Z.of_nat k) + (1 # 2))%Q /\
       train_test_split day data q =
         Ok (filter (fun r => day r <? pivot) data, filter (fun r => pivot <=? day r) data) /\
       (length (filter (fun r => (day r <? pivot)%Z) data) <= k)%nat /\
       filter (fun r => pivot <=? day r) data <> []) /\
    ((0 <= q)%Q -> (q <= 1)%Q -> data = [] -> train_test_split day data q = Ok ([], [])) /\
    (~ ((0 <= q)%Q /\ (q <= 1)%Q) -> train_test_split day data q = Err ValueError).
Proof. exact (fun A day => split_main day). Qed.
Print Assumptions train_test_split_at_quantile.

(** C60: the test users are known users of the first days, at most 50, all if there are
    no more, and none of those left out is active on more days. *)
Theorem stability_users_most_active :
  forall (sort_counts : list (Z * Z) -> list (Z * Z)) (initial_users : list Z) (left : list (Z * Z)) (n : nat),
    sorts_by snd sort_counts ->
    let res := get_users_stability sort_counts initial_users left n in
    NoDup res /\ (length res <= 50)%nat /\
    (forall u, In u res -> eligible n initial_users left u) /\
    (forall u v ku kv, eligible n initial_users left u -> ~ In u res -> In v res ->
       active_days n left u ku -> active_days n left v kv -> (ku <= kv)%nat) /\
    ((exists u, eligible n initial_users left u /\ ~ In u res) -> length res = 50%nat).
Proof. exact stability_main. Qed.
Print Assumptions stability_users_most_active.

(** Cases. *)
Example grouping_demo :
  get_date_to_group_mapping [(1, 2); (2, 4); (3, 9); (4, 1); (5, 1); (6, 1)] 5
  = [(1, 1); (2, 1); (3, 3); (4, 4); (5, 4); (6, 5)].
Proof. vm_compute. reflexivity. Qed.
Example grouping_demo_good_repair :
  get_date_to_group_mapping [(1, 9); (2, 1)] 5 = [(1, 1); (2, 1)].
Proof. vm_compute. reflexivity. Qed.
Example grouping_demo_single : get_date_to_group_mapping [(7, 1)] 5 = [(7, 7)].
Proof. vm_compute. reflexivity. Qed.

(** Rows (index, day, user); the stable sort is one of the admitted sorts. *)
Definition demo_rows : list (Z * Z * Z) :=
  [(0, 1, 5); (1, 1, 6); (2, 2, 5); (3, 2, 6); (4, 3, 5); (5, 4, 7); (6, 4, 5)].
Definition demo_day (r : Z * Z * Z) : Z := snd (fst r).
Definition demo_sort : list (Z * Z * Z) -> list (Z * Z * Z) := sort_stable (fun x y => demo_day x <=? demo_day y).
Example demo_sort_sorts : sorts_by demo_day demo_sort.
Proof.
  intro l. split; [apply Prelude_proofs.sort_stable_perm|].
  assert (S := Prelude_proofs.sort_stable_sorted (fun x y => demo_day x <=? demo_day y)
    (fun x y => Prelude_proofs.Zleb_total (demo_day x) (demo_day y))
    (fun x y z => Prelude_proofs.Zleb_trans (demo_day x) (demo_day y) (demo_day z)) l).
  unfold demo_sort. induction S as [|a k S IH F]; constructor; auto.
  eapply Forall_impl; [|exact F]. intros y H. now apply Z.leb_le.
Qed.
Example stream_demo :
  prepare_data_for_experiment (fun r => fst (fst r)) demo_day demo_sort demo_rows 3 (Some 2)
  = Ok ([(0, 1, 5); (1, 1, 6); (2, 2, 5)],
        [(2, [(3, 2, 6); (4, 3, 5); (5, 4, 7); (6, 4, 5)])],
        [((3, 2, 6), 2); ((4, 3, 5), 2); ((5, 4, 7), 2); ((6, 4, 5), 2)]).
Proof. vm_compute. reflexivity. Qed.
Example stream_demo_days :
  prepare_data_for_experiment (fun r => fst (fst r)) demo_day demo_sort demo_rows 3 None
  = Ok ([(0, 1, 5); (1, 1, 6); (2, 2, 5)],
        [(2, [(3, 2, 6)]); (3, [(4, 3, 5)]); (4, [(5, 4, 7); (6, 4, 5)])],
        [((3, 2, 6), 2); ((4, 3, 5), 3); ((5, 4, 7), 4); ((6, 4, 5), 4)]).
Proof. vm_compute. reflexivity. Qed.
Example split_demo :
  train_test_split demo_day demo_rows (3 # 4)
  = Ok ([(0, 1, 5); (1, 1, 6); (2, 2, 5); (3, 2, 6)], [(4, 3, 5); (5, 4, 7); (6, 4, 5)]).
Proof. vm_compute. reflexivity. Qed.
(** A single day leaves nothing to train on. *)
Example split_demo_single_day : train_test_split (fun x : Z => 1) [10; 11] (1 # 2) = Ok ([], [10; 11]).
Proof. vm_compute. reflexivity. Qed.
Example stability_demo :
  get_users_stability (sort_stable (fun x y => snd x <=? snd y)) [5; 6]
    [(6, 2); (5, 3); (7, 4); (5, 4); (6, 9)] 3 = [6; 5].
Proof. vm_compute. reflexivity. Qed.
