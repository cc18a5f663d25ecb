(** Vocabulary for experiments that start from a raw log: which rows a cut of the log in time
    order determines. *)
From Coq Require Import ZArith List Bool Sorting.Permutation.
From Verif Require Import Prelude DataPrep_model Tables_model Pipe_model.
Import ListNotations.
Open Scope Z_scope.

(** Numbers of rows of the log before and up to second [t]. *)
Definition rows_before (data : list raw) (t : Z) : nat := length (filter (fun r => raw_time r <? t) data).
Definition rows_upto (data : list raw) (t : Z) : nat := length (filter (fun r => raw_time r <=? t) data).

(** The first [n] rows in time order are not determined: row [n] and the next one fall into the
    same second, which has two different rows. *)
Definition torn (data : list raw) (n : nat) : Prop :=
  exists x y, In x data /\ In y data /\ x <> y /\ raw_time x = raw_time y /\
    (rows_before data (raw_time x) < n < rows_upto data (raw_time x))%nat.

(** Two splits give the models the same rows: the same initial rows and the same groups under
    the same dates, each up to the order of its rows. *)
Definition same_split (a b : list trow * list (Z * list trow) * list (trow * Z)) : Prop :=
  let '(initial, stream, _) := a in let '(initial', stream', _) := b in
  Permutation (map content initial) (map content initial') /\
  Forall2 (fun g g' => fst g = fst g' /\ Permutation (map content (snd g)) (map content (snd g'))) stream stream'.
