(** Model of the published statistics of the data: source/data_preparation.py
    [print_recsys_df_stats] and get_data_stats_latex.py.  Floats are exact rationals; printing
    and the LaTeX text are left out. *)
From Coq Require Import ZArith QArith Qround List Bool String.
From Verif Require Import Prelude Stream_model Tables_model.
Import ListNotations.
Open Scope Z_scope.

(** [Series.median()] of integers: the middle of the sorted values, or the mean of the two
    middle ones; missing (NaN) if there are none. *)
Definition median (l : list Z) : option Q :=
  let s := sort_stable Z.leb l in
  let n := List.length l in
  if Nat.eqb n 0 then None
  else if Nat.odd n then Some (inject_Z (nth (n / 2) s 0%Z))
  else Some ((inject_Z (nth (n / 2 - 1) s 0%Z) + inject_Z (nth (n / 2) s 0%Z)) / 2)%Q.

(** [np.round(x, 2)]: the product with 100 is rounded to the nearest integer, ties to even,
    and divided by 100. *)
Definition round2 (x : Q) : Q := (inject_Z (nearest (x * 100)) / 100)%Q.

(** The saved series of statistics (source/data_preparation.py:102-112). *)
Record stats := mkStats {
  s_users : Z; s_items : Z; s_dates : Z; s_interactions : Z; s_mean : Q; s_median : Q; s_density : Q }.

(** source/data_preparation.py:83-112 [print_recsys_df_stats].  [groupby(USER_ID)[ITEM_ID].count()]
    counts rows.  On an empty table the mean and the median are NaN without an exception, and
    the quotient of Python integers raises ZeroDivisionError. *)
Definition user_counts (df : list trow) : list Z :=
  map (fun g => Z.of_nat (List.length (snd g))) (groupby tb_user df).
Definition print_recsys_df_stats (df : list trow) : res stats :=
  let nu_users := Z.of_nat (List.length (unique (map tb_user df))) in
  let nu_items := Z.of_nat (List.length (unique (map tb_item df))) in
  let nu_dates := Z.of_nat (List.length (unique (map tb_day df))) in
  let n_interactions := Z.of_nat (List.length df) in
  let counts := user_counts df in
  let n_items_mean := round2 (inject_Z (fold_right Z.add 0%Z counts) / inject_Z (Z.of_nat (List.length counts)))%Q in
  if nu_users * nu_items =? 0 then Err ZeroDivisionError
  else match median counts with
  | None => Err RuntimeError (* a table with users has counts *)
  | Some m =>
    Ok (mkStats nu_users nu_items nu_dates n_interactions n_items_mean (round2 m)
          (round2 (inject_Z n_interactions / inject_Z (Z.mul nu_users nu_items) * 100)%Q))
  end.

(** get_data_stats_latex.py:10-39: one line per dataset; [astype(int)] cuts the fraction off.
    [read] opens and parses data_stats.csv of a dataset; an exception stops the script. *)
Definition stats_line : Type := (string * Z * Z * Z * Z * Q)%type.
Definition truncate (x : Q) : Z := Z.quot (Qnum x) (Zpos (Qden x)).
Definition stats_names : list (string * string) :=
  [("ml_20m", "ML-20M"); ("amz_b", "AMZ-B"); ("amz_g", "AMZ-G"); ("steam", "Steam")]%string.
Definition data_stats_table (read : string -> res stats) : res (list stats_line) :=
  mapM (fun n => do s <- read (fst n);
                 Ok (snd n, s_users s, s_items s, s_interactions s, truncate (s_median s), s_density s)) stats_names.
