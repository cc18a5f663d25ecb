(** Model of the scripts around the experiments: the tables written by prepare_data.py, the
    counts of its [save_data_dynamics], and the counts drawn by
    source/experiments/prepare_graphs.py [plot_new_entities_dynamics]. *)
From Coq Require Import ZArith List Bool.
From Verif Require Import Prelude DataPrep_model Pcore_model Stream_model.
Import ListNotations.
Open Scope Z_scope.

(** Seconds of a day. *)
Definition DAY : Z := 86400.

(** [Series.round('d')] (prepare_data.py:49, 70, 92): pandas rounds the number of
    nanoseconds to the nearest multiple of a day, ties to the even multiple
    (RoundTo.NEAREST_HALF_EVEN); times are whole seconds. *)
Definition round_day (t : Z) : Z :=
  let quotient := t / DAY in
  let remainder := t mod DAY in
  (if (DAY / 2 <? remainder) || ((remainder =? DAY / 2) && Z.odd quotient)
   then quotient + 1 else quotient) * DAY.

(** A row of the raw table: user, item, timestamp (prepare_data.py:41-45, 57-64, 80-86). *)
Definition raw : Type := (Z * Z * Z)%type.
Definition raw_user (r : raw) : Z := fst (fst r).
Definition raw_item (r : raw) : Z := snd (fst r).
Definition raw_time (r : raw) : Z := snd r.

(** A row of the prepared table, with the row label [to_csv] writes; the day is the number
    of seconds of its midnight. *)
Record trow := mkT {
  tb_index : Z; tb_user : Z; tb_item : Z; tb_time : Z; tb_day : Z; tb_rel : Z }.

(** [reset_index(drop=True)] and the columns 'day' and relevance
    (prepare_data.py:47-51, 66-72, 88-94), for given user and item columns. *)
Definition table_of (users items : list Z) (data : list raw) : list trow :=
  map (fun x => let '(i, (u, j, r)) := x in mkT i u j (raw_time r) (round_day (raw_time r)) 1)
      (enumerate 0 (combine (combine users items) data)).

Section Prepare.
  (** External: [sort_values(by=TIMESTAMP)], quicksort: some sorted permutation. *)
  Variable sort_time : list raw -> list raw.

  (** prepare_data.py:39-54 [prepare_ml20m]; [keep] is [int(data.shape[0] * ratio)]. *)
  Definition prepare_ml20m (keep : nat) (data : list raw) : list trow :=
    let data := lastn keep (sort_time data) in
    table_of (map raw_user data) (map raw_item data) data.

  (** prepare_data.py:56-76 [prepare_amazon] and 78-98 [prepare_steam]. *)
  Definition prepare_encoded (data : list raw) : list trow :=
    let data := sort_time data in
    table_of (encode_column (map raw_user data)) (encode_column (map raw_item data)) data.
End Prepare.

(** prepare_data.py:113-122, body of [save_data_dynamics]: [left] holds the user and the
    date column of the remaining rows; numbers of distinct users and of rows per day. *)
Definition data_dynamics (left : list (Z * Z)) (how_many_iterations : nat)
  : res (list nat * list nat) :=
  match rev (firstn how_many_iterations (sort_stable Z.leb (unique (map snd left)))) with
  | [] => Err IndexError
  | target_day :: _ =>
    let left := filter (fun r => snd r <? target_day) left in
    Ok (map (fun g => length (unique (map fst (snd g)))) (groupby snd left),
        map (fun g => length (map fst (snd g))) (groupby snd left))
  end.

(** Counts of one chunk: users and items that occur first in it ([ni]/[nu]: in a row where
    both are new). *)
Record new_counts := mkNew {
  nc_users : nat; nc_items : nat; nc_users_ni : nat; nc_items_nu : nat }.

(** source/experiments/prepare_graphs.py:156-178, loop body; sets are lists. *)
Definition new_entities_step (users_set items_set : list Z) (chunk : list row)
  : list Z * list Z * new_counts :=
  let masked := filter (fun r => negb (memZ (r_user r) users_set) && negb (memZ (r_item r) items_set)) chunk in
  let new_users_ni := unique (map r_user masked) in
  let new_items_nu := unique (map r_item masked) in
  let users_set := users_set ++ new_users_ni in
  let items_set := items_set ++ new_items_nu in
  let new_users := filter (fun u => negb (memZ u users_set)) (unique (map r_user chunk)) in
  let users_set := users_set ++ new_users in
  let new_items := filter (fun i => negb (memZ i items_set)) (unique (map r_item chunk)) in
  let items_set := items_set ++ new_items in
  (users_set, items_set,
   mkNew (length new_users) (length new_items) (length new_users_ni) (length new_items_nu)).
Fixpoint new_entities_dynamics (users_set items_set : list Z) (chunks : list (list row)) : list new_counts :=
  match chunks with
  | [] => []
  | c :: chunks' =>
    let '(us, is, n) := new_entities_step users_set items_set c in
    n :: new_entities_dynamics us is chunks'
  end.

(** source/experiments/prepare_graphs.py:136-194 [plot_new_entities_dynamics]: the series
    handed to [plot_results].  matplotlib raises ValueError when [x] and [y] differ in
    length. *)
Definition plot_new_entities (how_many_iterations : nat) (initial : list row) (chunks : list (list row))
  : res (list new_counts) :=
  let series := firstn how_many_iterations
                  (new_entities_dynamics (unique (map r_user initial)) (unique (map r_item initial)) chunks) in
  if Nat.eqb (length series) how_many_iterations then Ok series else Err ValueError.
