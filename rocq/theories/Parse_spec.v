(** Vocabulary for the parsers of the downloaded files. *)
From Coq Require Import ZArith List String.
From Verif Require Import Prelude Parse_model.
Import ListNotations.

(** [j] is [k] or occurs in it, at any depth. *)
Inductive inside (j : json) : json -> Prop :=
| inside_self : inside j j
| inside_array k l : In k l -> inside j k -> inside j (JArr l)
| inside_object key k l : In (key, k) l -> inside j k -> inside j (JObj l).

(** The value of a key: that of its last occurrence. *)
Definition binding {A} (l : list (string * A)) (key : string) (v : A) : Prop :=
  exists pre post, l = pre ++ (key, v) :: post /\ ~ In key (map fst post).

(** All keys occur. *)
Definition has_keys {A} (keys : list string) (l : list (string * A)) : Prop :=
  forall key, In key keys -> In key (map fst l).

(** All objects in a value have the keys. *)
Definition all_objects_have (keys : list string) (j : json) : Prop :=
  forall l, inside (JObj l) j -> has_keys keys l.

(** The outcome of a file read line by line: a row for every line, or the exception of the first
    line that has none. *)
Definition line_by_line {A B} (line : A -> res B) (lines : list A) (out : res (list B)) : Prop :=
  match out with
  | Ok rows => Forall2 (fun x r => line x = Ok r) lines rows
  | Err e => exists pre x post, lines = pre ++ x :: post /\ line x = Err e /\ forall y, In y pre -> exists r, line y = Ok r
  end.
