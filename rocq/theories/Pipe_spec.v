(** Vocabulary for whole experiments on a prepared table. *)
From Coq Require Import ZArith List Bool Sorting.Sorted Sorting.Permutation.
From Verif Require Import Prelude DataPrep_model Tables_model Full_spec Seqx_spec Tdx_spec.
Import ListNotations.
Open Scope Z_scope.

(** Rows numbered from 0 and days in order. *)
Definition in_day_order (data : list trow) : Prop :=
  map tb_index data = zrange (length data) /\ StronglySorted (fun x y => tb_day x <= tb_day y) data.

(** [groups] are the rows [rest], in groups that are not empty and follow each other in time. *)
Definition splits (rest : list trow) (groups : list (list trow)) : Prop :=
  Permutation (concat groups) rest /\ Forall (fun g => g <> []) groups /\
  (forall t t' g g' r r', (t < t')%nat -> nth_error groups t = Some g -> nth_error groups t' = Some g' ->
     In r g -> In r' g' -> tb_day r < tb_day r').

(** [u] is a user of [initial] and of one of the first [n] groups. *)
Definition returns (n : nat) (initial : list trow) (groups : list (list trow)) (u : Z) : Prop :=
  In u (map tb_user initial) /\ exists t g, (t < n)%nat /\ nth_error groups t = Some g /\ In u (map tb_user g).

(** At most 50 different users who return, all of them if there are no more. *)
Definition selected (n : nat) (initial : list trow) (groups : list (list trow)) (test : list Z) : Prop :=
  NoDup test /\ (length test <= 50)%nat /\ (forall u, In u test -> returns n initial groups u) /\
  ((length test < 50)%nat -> forall u, returns n initial groups u -> In u test).

(** What the [n] steps need apart from a stability test that is not empty. *)
Definition served (k : nat) (fits : list row -> list row -> Prop) (keep : list row -> list row) (test_users : list Z)
    (initial : list row) (stream : list (list row)) (n : nat) : Prop :=
  forall t c, (t < n)%nat -> nth_error stream t = Some c ->
    testable k test_users (past keep initial stream t) c /\ fits (past keep initial stream t) c.

(** The same for the retrained sequential model. *)
Definition retrain_served (r0 r1 r2 L k : nat) (keep : list row -> list row) (test_users : list Z)
    (initial : list row) (stream : list (list row)) (n : nat) : Prop :=
  (forall t, (t <= n)%nat -> seq_trainable r0 r1 r2 L (recropped keep initial stream t)) /\
  (forall t c, (t < n)%nat -> nth_error stream t = Some c -> testable k test_users (recropped keep initial stream t) c).
