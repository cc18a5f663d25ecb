(** Vocabulary of C110: what the averages in the tables of results stand for. *)
From Coq Require Import ZArith QArith List Bool String.
From Verif Require Import Prelude DataPrep_model Eval_spec Tensor_model Dynamic_model Dynamic_spec Report_model.
Import ListNotations.
Open Scope Z_scope.

(** Whole numbers as rationals; the total of the first [n] values. *)
Definition num (n : nat) : Q := inject_Z (Z.of_nat n).
Definition total (n : nat) (f : nat -> Q) : Q := Qsum (map f (seq 0 n)).

(** [q] is not below all of the first [n] values and not above all of them. *)
Definition between (n : nat) (f : nat -> Q) (q : Q) : Prop :=
  (exists t, (t < n)%nat /\ (f t <= q)%Q) /\ (exists t, (t < n)%nat /\ (q <= f t)%Q).

(** Step [t] tests the items [items t], one per user, against the lists [lists t]. *)
Section Rounds.
  Variables (lists : nat -> list (list Z)) (items : nat -> list Z).

  (** Tests of the first [n] steps, successful tests, and their share. *)
  Definition all_tests (n : nat) : nat := list_sum (map (fun t => List.length (items t)) (seq 0 n)).
  Definition all_hits (n : nat) : nat := list_sum (map (fun t => Eval_spec.hits (lists t) (items t)) (seq 0 n)).
  Definition overall_share (n : nat) : Q := (num (all_hits n) / num (all_tests n))%Q.

  (** [x] is the mean of the reciprocal ranks of all tests. *)
  Definition overall_rank (n : nat) (x : Q) : Prop :=
    exists rrs : nat -> list Q,
      (forall t, (t < n)%nat -> Forall2 (fun rt y => RR (fst rt) (snd rt) y) (combine (lists t) (items t)) (rrs t)) /\
      (x == total n (fun t => Qsum (rrs t)) / num (all_tests n))%Q.
End Rounds.

(** The lists and items are those of the history [H] over the stream. *)
Definition tested_in {S D A V} (m : api S D A) (stream : list (list row)) (n : nat) (H : @history S D A V)
    (lists : nat -> list (list Z)) (items : nat -> list Z) : Prop :=
  forall t chunk, (t < n)%nat -> nth_error stream t = Some chunk ->
    recommend m (st H t) (fst (tests m chunk (st H t))) false = Ok (lists t) /\ items t = snd (tests m chunk (st H t)).

(** The table of results shows the number [q] for a metric of the result file [j]. *)
Definition shown (metric : string) (j : json) (q : Q) : Prop :=
  exists c, sget metric (model_cells table_metrics (Ok j)) = Some (Mean c) /\ (c == q)%Q.

(** Two result files with the same numbers under the same names. *)
Definition same_numbers (j j' : json) : Prop :=
  Forall2 (fun p p' => fst p = fst p' /\ Forall2 Qeq (snd p) (snd p')) j j'.
