(** Property C93: the published statistics of the data. *)
From Coq Require Import ZArith QArith List String Sorting.Permutation.
From Verif Require Import Prelude DataPrep_spec Pcore_model Stream_spec Tables_model Rawlog_spec Rawlog_main Stats_model Stats_spec Stats_main.
Import ListNotations.
Open Scope Z_scope.

(** C93.  The statistics of a table: numbers of different users, items and days, of rows, the
    median and (to two decimals) the mean of the numbers of rows of its users, and the density
    in percent; an empty table raises ZeroDivisionError. *)
Theorem stats_of_table :
  forall df : list trow,
  match print_recsys_df_stats df with
  | Err e => df = [] /\ e = ZeroDivisionError
  | Ok s => df <> [] /\ s_users s = different (map tb_user df) /\ s_items s = different (map tb_item df) /\
      s_dates s = different (map tb_day df) /\ s_interactions s = Z.of_nat (List.length df) /\
      is_median (map (fun u => Z.of_nat (rows_of df u)) (nodup Z.eq_dec (map tb_user df))) (s_median s) /\
      to_cents (s_mean s) (inject_Z (s_interactions s) / inject_Z (s_users s)) /\
      to_cents (s_density s) (inject_Z (s_interactions s) / inject_Z (s_users s * s_items s) * 100)
  end.
Proof. exact stats_main. Qed.
Print Assumptions stats_of_table.

(** C93.  The printed table has a line for every dataset with its own numbers, and the median
    without its fraction; one empty dataset leaves no table. *)
Theorem stats_table :
  forall tables : string -> list trow,
  match data_stats_table (fun n => print_recsys_df_stats (tables n)) with
  | Err e => e = ZeroDivisionError /\ exists n, In n ["ml_20m"; "amz_b"; "amz_g"; "steam"]%string /\ tables n = []
  | Ok lines =>
      Forall2 (fun (n : string * string) (l : stats_line) => let df := tables (fst n) in
        df <> [] /\ exists d, let '(name, nu, ni, n_rows, shown, density) := l in
          name = snd n /\ nu = different (map tb_user df) /\ ni = different (map tb_item df) /\ n_rows = Z.of_nat (List.length df) /\
          is_median (map (fun u => Z.of_nat (rows_of df u)) (nodup Z.eq_dec (map tb_user df))) d /\
          (inject_Z shown <= d /\ d < inject_Z (shown + 1))%Q /\
          to_cents density (inject_Z n_rows / inject_Z (nu * ni) * 100))
        [("ml_20m", "ML-20M"); ("amz_b", "AMZ-B"); ("amz_g", "AMZ-G"); ("steam", "Steam")]%string lines
  end.
Proof. exact table_main. Qed.
Print Assumptions stats_table.

(** C93.  Without repeated pairs of a user and an item the density is a percentage. *)
Theorem density_is_a_share :
  forall (df : list trow) (s : stats),
  print_recsys_df_stats df = Ok s -> NoDup (map (fun r => (tb_user r, tb_item r)) df) -> (0 <= s_density s <= 100)%Q.
Proof. exact density_main. Qed.
Print Assumptions density_is_a_share.

(** C93.  The statistics of an Amazon or Steam log do not depend on the order of its rows or on
    the sort; those of MovieLens do not unless the cut that drops the oldest rows falls into a
    second with two different rows. *)
Theorem stats_of_log :
  forall (sort_time sort_time' : list raw -> list raw) (data data' : list raw),
  sorts_by raw_time sort_time -> sorts_by raw_time sort_time' -> Permutation data data' ->
  print_recsys_df_stats (prepare_encoded sort_time data) = print_recsys_df_stats (prepare_encoded sort_time' data') /\
  (forall keep, ~ torn data (List.length data - keep) ->
     print_recsys_df_stats (prepare_ml20m sort_time keep data) = print_recsys_df_stats (prepare_ml20m sort_time' keep data')).
Proof. exact log_stats_main. Qed.
Print Assumptions stats_of_log.

(** C93.  The table of Steam shows a median of at least 5, and a density of at most 100%. *)
Theorem steam_stats :
  forall (sort_time : list raw -> list raw) (data : list raw) (fuel : nat) (cleaned : list raw) (s : stats),
  sorts_by raw_time sort_time -> (List.length data < fuel)%nat -> steam_table raw_user raw_item fuel data = Ok cleaned ->
  print_recsys_df_stats (prepare_encoded sort_time cleaned) = Ok s ->
  (5 <= s_median s)%Q /\ (5 <= s_mean s)%Q /\ (0 <= s_density s <= 100)%Q.
Proof. exact steam_stats_main. Qed.
Print Assumptions steam_stats.

(** Users 1, 2 with 3 and 2 rows, one pair repeated: the median is 5/2, the table shows 2. *)
Definition st_row (i u j d : Z) : trow := mkT i u j (86400 * d) (86400 * d) 1.
Definition st_table : list trow := [st_row 0 1 10 0; st_row 1 2 10 0; st_row 2 1 20 1; st_row 3 2 20 1; st_row 4 1 10 2].
Example stats_case : exists s, print_recsys_df_stats st_table = Ok s /\ s_users s = 2 /\ s_items s = 2 /\ s_dates s = 3 /\ s_interactions s = 5 /\
  (s_mean s == 5 # 2)%Q /\ (s_median s == 5 # 2)%Q /\ (s_density s == 125)%Q.
Proof. eexists. split; [vm_compute; reflexivity|]. vm_compute. intuition. Qed.
Example stats_table_case : exists lines, data_stats_table (fun _ => print_recsys_df_stats st_table) = Ok lines /\
  map (fun l : stats_line => snd (fst l)) lines = [2; 2; 2; 2].
Proof. eexists. split; vm_compute; reflexivity. Qed.
Example stats_empty_case : print_recsys_df_stats [] = Err ZeroDivisionError.
Proof. reflexivity. Qed.

(** C93, the bad side: with a repeated pair the density exceeds 100%. *)
Theorem density_at_most_100_refuted :
  exists df s, print_recsys_df_stats df = Ok s /\ (100 < s_density s)%Q.
Proof. exists st_table. eexists. split; [vm_compute; reflexivity|]. vm_compute. reflexivity. Qed.
Print Assumptions density_at_most_100_refuted.

(** C93, the bad side: the number of users of a MovieLens log depends on the order of rows of
    one second. *)
Theorem ml20m_stats_independent_of_row_order_refuted :
  exists (data data' : list raw) (keep : nat) s s', Permutation data data' /\ sorts_by raw_time time_sort /\
    print_recsys_df_stats (prepare_ml20m time_sort keep data) = Ok s /\
    print_recsys_df_stats (prepare_ml20m time_sort keep data') = Ok s' /\ s_users s <> s_users s'.
Proof.
  exists [(1, 10, 0); (1, 20, 0); (2, 10, 0)], [(2, 10, 0); (1, 10, 0); (1, 20, 0)], 2%nat. eexists. eexists.
  split; [apply Permutation_sym; apply (Permutation_cons_append [(1, 10, 0); (1, 20, 0)])|]. split; [exact time_sorts|].
  split; [vm_compute; reflexivity|]. split; [vm_compute; reflexivity|]. vm_compute. discriminate.
Qed.
Print Assumptions ml20m_stats_independent_of_row_order_refuted.

(** A 5 by 5 log survives the cleaning of Steam. *)
Definition st_log : list raw := map (fun n => (n / 5, n mod 5, n)) (zrange 25).
Example steam_stats_case : exists s, steam_table raw_user raw_item 26 st_log = Ok st_log /\
  print_recsys_df_stats (prepare_encoded time_sort st_log) = Ok s /\ (s_median s == 5)%Q /\ (s_density s == 100)%Q.
Proof. eexists. split; [vm_compute; reflexivity|]. split; [vm_compute; reflexivity|]. split; vm_compute; reflexivity. Qed.
