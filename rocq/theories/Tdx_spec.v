(** Vocabulary for the experiment with the retrained sequential model. *)
From Coq Require Import List ZArith.
From Verif Require Import Prelude DataPrep_model Full_spec Seqx_spec.
Import ListNotations.

(** The table before chunk [t]: every chunk is appended and the result is cropped again. *)
Definition recropped (keep : list row -> list row) (initial : list row) (stream : list (list row)) (t : nat) : list row :=
  fold_left (fun P c => keep (P ++ c)) (firstn t stream) (keep initial).

(** What [n] steps need: every table can be trained on and serves the chunk that follows. *)
Definition retrainable (r0 r1 r2 L k : nat) (keep : list row -> list row) (test_users : list Z)
    (initial : list row) (stream : list (list row)) (n : nat) : Prop :=
  (forall t, (t <= n)%nat -> seq_trainable r0 r1 r2 L (recropped keep initial stream t)) /\
  (forall t c, (t < n)%nat -> nth_error stream t = Some c -> testable k test_users (recropped keep initial stream t) c) /\
  ((2 <= n)%nat -> test_users <> []).
(** Chunk [t] does not leave fewer items in the table. *)
Definition items_stay (keep : list row -> list row) (initial : list row) (stream : list (list row)) (t : nat) : Prop :=
  (n_items_in (recropped keep initial stream t) <= n_items_in (recropped keep initial stream (S t)))%Z.
