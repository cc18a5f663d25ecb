(** Model of the table cleaning code: load_data.py (p-core filter, de-duplication) and
    prepare_data.py (categorical encoding). *)
From Coq Require Import ZArith List Bool.
From Verif Require Import Prelude.
Import ListNotations.
Open Scope Z_scope.

Section Table.
  (** A row and the columns that are read. *)
  Context {A : Type}.
  Variables user item : A -> Z.

  (** [data[col].value_counts()[x]]: number of rows with value [x]. *)
  Definition occurrences (col : A -> Z) (x : Z) (data : list A) : Z :=
    Z.of_nat (length (filter (fun r => col r =? x) data)).

  (** [valid = data[col].value_counts() >= pcore] read at the values of the column:
      the test of the query [col in @valid.index[@valid]] (load_data.py:80-83). *)
  Definition valid (col : A -> Z) (pcore : Z) (data : list A) (r : A) : bool :=
    pcore <=? occurrences col (col r) data.

  (** load_data.py:80-85 and 88-93: one half of the loop body, the new table and the check. *)
  Definition half (col : A -> Z) (pcore : Z) (data : list A) : list A * bool :=
    if forallb (valid col pcore data) data then (data, true)
    else (filter (valid col pcore data) data, false).

  (** load_data.py:77-97 [pcore_filter]: items first, then users, until neither half
      changes the table.  [fuel] bounds the number of rounds of [while pcore]. *)
  Fixpoint pcore_loop (fuel : nat) (pcore : Z) (data : list A) : res (list A) :=
    match fuel with
    | O => Err OutOfFuel
    | S fuel' =>
      let '(data1, item_check) := half item pcore data in
      let '(data2, user_check) := half user pcore data1 in
      if user_check && item_check then Ok data2 else pcore_loop fuel' pcore data2
    end.
  Definition pcore_filter (fuel : nat) (pcore : Z) (data : list A) : res (list A) :=
    if pcore =? 0 then Ok data else pcore_loop fuel pcore data.

  (** load_data.py:111: [drop_duplicates(subset=[user, item], keep='last')]. *)
  Fixpoint drop_duplicates (data : list A) : list A :=
    match data with
    | [] => []
    | r :: data' =>
      if existsb (fun s => (user s =? user r) && (item s =? item r)) data' then drop_duplicates data'
      else r :: drop_duplicates data'
    end.

  (** load_data.py:111-112: the table written by [load_steam]. *)
  Definition steam_table (fuel : nat) (data : list A) : res (list A) :=
    pcore_filter fuel 5 (drop_duplicates data).
End Table.

(** Position of a value in a list ([Categorical] looks codes up in its categories). *)
Fixpoint index_of (x : Z) (l : list Z) : Z :=
  match l with
  | [] => 0
  | y :: l' => if x =? y then 0 else 1 + index_of x l'
  end.

(** prepare_data.py:31-37 [encode_column]: [pd.Categorical(data[column]).codes], the
    categories being the sorted distinct values (no missing values). *)
Definition encode_column (values : list Z) : list Z :=
  map (fun x => index_of x (np_unique values)) values.
