(** Vocabulary for the trip of names through CSV files. *)
From Coq Require Import ZArith List String.
From Verif Require Import Tables_model Csv_model.
Import ListNotations.
Open Scope Z_scope.

(** Codes tell names apart exactly as the names do. *)
Definition ids_kept {A} (names : list A) (codes : list Z) : Prop :=
  List.length codes = List.length names /\
  forall i j x y a b, nth_error names i = Some x -> nth_error names j = Some y ->
    nth_error codes i = Some a -> nth_error codes j = Some b -> (a = b <-> x = y).

(** The contract of the categories: the different values that are not missing. *)
Definition categories (cats : list cell -> list cell) : Prop :=
  forall l, NoDup (cats l) /\ forall c, In c (cats l) <-> In c l /\ c <> Missing.

(** All names of the chunk that do not read as missing read as numbers. *)
Definition all_numbers (number : list string -> string -> option Z) (chunk : list string) : Prop :=
  forall s, In s chunk -> ~ In s na_values -> exists n, number chunk s = Some n.

(** The row of the file for a row of ids, with given spellings. *)
Definition spelled (user item : Z -> string) (r : raw) : frow := (user (raw_user r), item (raw_item r), raw_time r).
