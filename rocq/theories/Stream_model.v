(** Model of source/experiments/prepare_data.py: date grouping, the split into initial
    data and stream, the train/validation split and the users of the stability test. *)
From Coq Require Import ZArith QArith Qround List Bool.
From Verif Require Import Prelude.
Import ListNotations.
Open Scope Z_scope.

(** source/experiments/prepare_data.py:11-29 [get_date_to_group_mapping].  Dates are
    integers (ISO strings of one format compare like dates).  [n] is the number of dates,
    [i] the position of the head of the remaining list; [group] is read only after it was
    set.  [np.sort(index)[i-1]] with [i = 0] is the last entry. *)
Fixpoint group_loop (hm : Z) (dates : list Z) (i : nat) (l : list (Z * Z))
         (new_start : bool) (local_sum group : Z) (mapping : dict Z) : dict Z :=
  match l with
  | [] => mapping
  | (d, v) :: l' =>
    let '(new_start, local_sum, group) :=
      if new_start then (hm <? v, v, d)
      else (hm <? local_sum + v, local_sum + v, group) in
    let mapping := dset d group mapping in
    let mapping :=
      if Nat.eqb i (length dates - 1) && (local_sum <=? hm)
      then dset d (nth (if Nat.eqb i 0 then length dates - 1 else i - 1) dates 0) mapping
      else mapping in
    group_loop hm dates (S i) l' new_start local_sum group mapping
  end.
Definition get_date_to_group_mapping (date_user_count : list (Z * Z)) (hm : Z) : dict Z :=
  group_loop hm (sort_stable Z.leb (map fst date_user_count)) 0 date_user_count true 0 0 [].

(** [df.groupby(key)] iterated: ascending keys, rows in table order. *)
Definition groupby {A} (key : A -> Z) (l : list A) : list (Z * list A) :=
  map (fun k => (k, filter (fun r => key r =? k) l)) (np_unique (map key l)).

Section Split.
  Context {A : Type}.
  (** Columns; [index] is the row label read with [index_col=[0]]. *)
  Variables index day user : A -> Z.
  (** External: [sort_values(by=DATE_DAYS)], quicksort: some sorted permutation. *)
  Variable sort_days : list A -> list A.

  (** source/experiments/prepare_data.py:31-49 [prepare_data_for_experiment]; [cut] is
      [int(data.shape[0] * init_ratio)].  Returns the initial rows, the stream of groups
      and the remaining rows with their date column (the label of their group). *)
  Definition prepare_data_for_experiment (data : list A) (cut : Z) (hm : option Z)
    : res (list A * list (Z * list A) * list (A * Z)) :=
    let initial := filter (fun r => index r <? cut) data in
    let rest := filter (fun r => negb (index r <? cut)) data in
    match hm with
    | None => Ok (initial, groupby day rest, map (fun r => (r, day r)) rest)
    | Some hm =>
      let left := sort_days rest in
      let date_user_count := map (fun g => (fst g, Z.of_nat (length (snd g)))) (groupby day left) in
      let date_to_group_id := get_date_to_group_mapping date_user_count hm in
      do labelled <- mapM (fun r => match dget (day r) date_to_group_id with
                                    | Some g => Ok (r, g)
                                    | None => Err KeyError
                                    end) left;
      Ok (initial, map (fun g => (fst g, map fst (snd g))) (groupby snd labelled), labelled)
    end.

  (** Index used by [quantile(q, interpolation='nearest')] on [n] values: [(n-1)*q]
      rounded to the nearest integer, ties to even. *)
  Definition nearest (x : Q) : Z :=
    let f := Qfloor x in
    match Qcompare (x - inject_Z f)%Q (1 # 2) with
    | Lt => f
    | Eq => if Z.even f then f else f + 1
    | Gt => f + 1
    end.
  Definition quantile (values : list Z) (q : Q) : option Z :=
    nth_error (sort_stable Z.leb values) (Z.to_nat (nearest (inject_Z (Z.of_nat (length values) - 1) * q)%Q)).

  (** source/experiments/prepare_data.py:64-69 [train_test_split]; [day] stands for the
      timestamp of the day.  The quantile of no values is NaN, which compares false. *)
  Definition train_test_split (data : list A) (q : Q) : res (list A * list A) :=
    if Qle_bool 0 q && Qle_bool q 1 then
      match quantile (map day data) q with
      | None => Ok (data, [])
      | Some pivot => Ok (filter (fun r => negb (pivot <=? day r)) data, filter (fun r => pivot <=? day r) data)
      end
    else Err ValueError.
End Split.

(** External: [sort_values()] of the counts, quicksort: some sorted permutation.
    source/experiments/prepare_data.py:51-62 [get_users_stability]; [left] holds the user
    and the date column of the remaining rows. *)
Definition get_users_stability (sort_counts : list (Z * Z) -> list (Z * Z))
           (initial_users : list Z) (left : list (Z * Z)) (hm_unique_days : nat) : list Z :=
  let days := firstn hm_unique_days (sort_stable Z.leb (unique (map snd left))) in
  let masked := filter (fun r => memZ (snd r) days && memZ (fst r) (unique initial_users)) left in
  let counts := map (fun g => (fst g, Z.of_nat (length (unique (map snd (snd g)))))) (groupby fst masked) in
  map fst (lastn 50 (sort_counts counts)).
