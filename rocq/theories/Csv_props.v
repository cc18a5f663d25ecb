(** Property C97: what the CSV files between the scripts do to the ids. *)
From Coq Require Import ZArith QArith List String.
From Verif Require Import Prelude Pcore_model Stream_spec Tables_model Stats_model Stats_spec Rawlog_main Csv_model Csv_spec Csv_main Csv_wit.
Import ListNotations.
Open Scope Z_scope.

(** C97.  The codes of a column: -1 exactly for missing values, different for different values,
    and the others fill an interval from 0. *)
Theorem codes_of_column :
  forall (cats : list cell -> list cell) (column : list cell), categories cats ->
  (forall i a, nth_error (codes cats column) i = Some a -> (a = -1 <-> nth_error column i = Some Missing)) /\
  ids_kept column (codes cats column) /\
  exists n : nat, forall k, 0 <= k < Z.of_nat n <-> In k (codes cats column) /\ k <> -1.
Proof. exact codes_main. Qed.
Print Assumptions codes_of_column.

(** C97.  The ids of a column survive the file exactly when at most one name reads as missing,
    different names of numeric chunks are different numbers (and the same name always the same
    number), and no name of a numeric chunk occurs in a textual one. *)
Theorem ids_survive_csv_exactly :
  forall (number : list string -> string -> option Z) (cats : list cell -> list cell) (chunks : list (list string)),
  categories cats ->
  (ids_kept (List.concat chunks) (codes cats (read_column number chunks)) <->
   (forall x y, In x (List.concat chunks) -> In y (List.concat chunks) -> In x na_values -> In y na_values -> x = y) /\
   (forall c d x y, In c chunks -> In d chunks -> In x c -> In y d -> ~ In x na_values -> ~ In y na_values ->
      all_numbers number c -> all_numbers number d -> (number c x = number d y <-> x = y)) /\
   (forall c d x, In c chunks -> In d chunks -> In x c -> In x d -> ~ In x na_values -> all_numbers number c -> all_numbers number d)).
Proof. exact kept_main. Qed.
Print Assumptions ids_survive_csv_exactly.

(** C97.  They survive when every chunk has a name that is neither missing nor a number, and at
    most one name reads as missing. *)
Theorem textual_ids_survive_csv :
  forall (number : list string -> string -> option Z) (cats : list cell -> list cell) (chunks : list (list string)),
  categories cats ->
  (forall c, In c chunks -> exists s, In s c /\ ~ In s na_values /\ number c s = None) ->
  (forall x y, In x (List.concat chunks) -> In y (List.concat chunks) -> In x na_values -> In y na_values -> x = y) ->
  ids_kept (List.concat chunks) (codes cats (read_column number chunks)).
Proof. exact safe_main. Qed.
Print Assumptions textual_ids_survive_csv.

(** C97.  If they survive for users and items, the published statistics are those of the table
    before it was written. *)
Theorem stats_survive_csv :
  forall (user item : Z -> string) (number : list string -> string -> option Z) (cats : list cell -> list cell)
    (sort : list crow -> list crow) (sort' : list raw -> list raw) (chunks : list (list raw)),
  categories cats -> sorts_by (fun r : crow => snd r) sort -> sorts_by raw_time sort' ->
  ids_kept (map raw_user (List.concat chunks)) (codes cats (read_column number (map (map (fun r => user (raw_user r))) chunks))) ->
  ids_kept (map raw_item (List.concat chunks)) (codes cats (read_column number (map (map (fun r => item (raw_item r))) chunks))) ->
  print_recsys_df_stats (prepare_read number cats sort (map (map (spelled user item)) chunks))
  = print_recsys_df_stats (prepare_encoded sort' (List.concat chunks)).
Proof. exact trip_main. Qed.
Print Assumptions stats_survive_csv.

(** C97.  Then the median and the mean of a cleaned Steam table are at least 5, its density at
    most 100%. *)
Theorem steam_stats_after_csv :
  forall (user item : Z -> string) (number : list string -> string -> option Z) (cats : list cell -> list cell)
    (sort : list crow -> list crow) (data : list raw) (fuel : nat) (chunks : list (list raw)) (s : stats),
  categories cats -> sorts_by (fun r : crow => snd r) sort ->
  (List.length data < fuel)%nat -> steam_table raw_user raw_item fuel data = Ok (List.concat chunks) ->
  ids_kept (map raw_user (List.concat chunks)) (codes cats (read_column number (map (map (fun r => user (raw_user r))) chunks))) ->
  ids_kept (map raw_item (List.concat chunks)) (codes cats (read_column number (map (map (fun r => item (raw_item r))) chunks))) ->
  print_recsys_df_stats (prepare_read number cats sort (map (map (spelled user item)) chunks)) = Ok s ->
  (5 <= s_median s)%Q /\ (5 <= s_mean s)%Q /\ (0 <= s_density s <= 100)%Q.
Proof. exact steam_trip_main. Qed.
Print Assumptions steam_stats_after_csv.

(** Names in one textual chunk: "7" and "007" stay apart, "NA" gets the code -1. *)
Example csv_column_example :
  (forall c, In c [["ann"; "7"; "bob"; "007"; "NA"; "7"]%string] -> exists s, In s c /\ ~ In s na_values /\ decimal c s = None) /\
  codes some_cats (read_column decimal [["ann"; "7"; "bob"; "007"; "NA"; "7"]%string]) = [0; 3; 1; 2; -1; 3] /\
  codes some_cats (read_column decimal [["ann"; "bob"]; ["7"; "007"; "NA"; "7"]]%string) = [0; 1; 2; 2; -1; 2].
Proof.
  split; [intros c [<-|[]]; exists "bob"%string; split; [right; right; now left|]; split; [|reflexivity]; intro H; vm_compute in H; intuition discriminate|].
  split; vm_compute; reflexivity.
Qed.
(** A clean Steam table whose ids survive: user names with "NA", numeric item names. *)
Example csv_trip_example : categories some_cats /\ sorts_by (fun r : crow => snd r) some_sort /\
  steam_table raw_user raw_item 26 five = Ok (List.concat [five]) /\
  ids_kept (map raw_user (List.concat [five])) (codes some_cats (read_column decimal (map (map (fun r => players (raw_user r))) [five]))) /\
  ids_kept (map raw_item (List.concat [five])) (codes some_cats (read_column decimal (map (map (fun r => games (raw_item r))) [five]))) /\
  exists s, print_recsys_df_stats (prepare_read decimal some_cats some_sort (map (map (spelled players games)) [five])) = Ok s /\
    s_users s = 5 /\ (s_median s == 5)%Q /\ (s_density s == 100)%Q.
Proof.
  split; [exact some_cats_ok|]. split; [exact some_sorts|]. split; [vm_compute; reflexivity|].
  split; [apply kept_test_ok; vm_compute; reflexivity|]. split; [apply kept_test_ok; vm_compute; reflexivity|].
  eexists. split; [vm_compute; reflexivity|]. split; [|split]; vm_compute; reflexivity.
Qed.

(** C97, the bad side: in a cleaned Steam table two users named "NA" and "null" become one, and
    the density exceeds 100%. *)
Theorem missing_names_stay_apart_refuted :
  exists (data : list raw) (s : stats), steam_table raw_user raw_item (S (List.length data)) data = Ok data /\
    (forall r q, In r data -> In q data -> nameless (raw_user r) = nameless (raw_user q) -> raw_user r = raw_user q) /\
    different (map raw_user data) = 6 /\
    print_recsys_df_stats (prepare_read decimal some_cats some_sort [map (spelled nameless games) data]) = Ok s /\
    s_users s = 5 /\ (100 < s_density s)%Q.
Proof.
  exists six. eexists. split; [vm_compute; reflexivity|]. split; [apply spelling_ok; vm_compute; reflexivity|].
  split; [vm_compute; reflexivity|]. split; [vm_compute; reflexivity|]. split; vm_compute; reflexivity.
Qed.
Print Assumptions missing_names_stay_apart_refuted.

(** C97, the bad side: users named by numbers are split when they occur in a numeric and in a
    textual chunk, and the median of a cleaned Steam table falls below 5. *)
Theorem numbered_names_stay_whole_refuted :
  exists (chunks : list (list raw)) (s : stats),
    steam_table raw_user raw_item (S (List.length (List.concat chunks))) (List.concat chunks) = Ok (List.concat chunks) /\
    (forall r q, In r (List.concat chunks) -> In q (List.concat chunks) -> numbered (raw_user r) = numbered (raw_user q) -> raw_user r = raw_user q) /\
    different (map raw_user (List.concat chunks)) = 5 /\
    print_recsys_df_stats (prepare_read decimal some_cats some_sort (map (map (spelled numbered games)) chunks)) = Ok s /\
    s_users s = 9 /\ (s_median s < 5)%Q.
Proof.
  exists [first_rows; other_rows]. eexists. split; [vm_compute; reflexivity|]. split; [apply spelling_ok; vm_compute; reflexivity|].
  split; [vm_compute; reflexivity|]. split; [vm_compute; reflexivity|]. split; vm_compute; reflexivity.
Qed.
Print Assumptions numbered_names_stay_whole_refuted.
