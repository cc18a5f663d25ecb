(** Independent vocabulary for the search properties. *)
From Coq Require Import ZArith QArith List Bool.
From Verif Require Import Pcore_spec.
Import ListNotations.
Open Scope Z_scope.

(** Score number [i] is better than 0 and than all scores before it. *)
Definition improves (scores : list Q) (i : nat) : Prop :=
  exists s, nth_error scores i = Some s /\ (0 < s)%Q /\ forall j t, (j < i)%nat -> nth_error scores j = Some t -> (t < s)%Q.

(** Score number [i] and the [p] scores before it did not improve. *)
Definition gives_up (p : nat) (scores : list Q) (i : nat) : Prop :=
  (p <= i < length scores)%nat /\ forall j, (i - p <= j <= i)%nat -> ~ improves scores j.

(** [m] is the largest of 0 and the scores. *)
Definition best_score (scores : list Q) (m : Q) : Prop :=
  (0 <= m)%Q /\ (forall s, In s scores -> (s <= m)%Q) /\ (m = 0%Q \/ In m scores).

(** [r] is the first row of [l] with the smallest key. *)
Definition first_smallest {A} (key : A -> Z) (l : list A) (r : A) : Prop :=
  exists pre post, l = pre ++ r :: post /\ (forall x, In x pre -> key r < key x) /\ (forall x, In x post -> key r <= key x).

(** No metric of the table is larger; the largest but one value is [v]. *)
Definition is_max {A} (metric : A -> Q) (l : list A) (r : A) : Prop :=
  forall x, In x l -> (metric x <= metric r)%Q.
Definition is_second {A} (metric : A -> Q) (l : list A) (v : Q) : Prop :=
  exists r top, In r l /\ (metric r == v)%Q /\ In top l /\ (v < metric top)%Q /\
    forall x, In x l -> (v < metric x)%Q -> (metric x == metric top)%Q.

(** A tuple with one value for every parameter. *)
Definition in_product (values : list (list Z)) (c : list Z) : Prop := Forall2 (fun x v => In x v) c values.
(** The number of tuples counted with repetition. *)
Definition grid_size (values : list (list Z)) : nat := fold_right (fun v p => length v * p)%nat 1%nat values.

(** [k] scores are recorded: those before the first giving up, or all. *)
Definition recorded (p : nat) (scores : list Q) (k : nat) : Prop :=
  (gives_up p scores k /\ forall j, (j < k)%nat -> ~ gives_up p scores j) \/
  (k = length scores /\ forall i, ~ gives_up p scores i).

(** The rows of a configuration: iteration number (from 1) and score. *)
Definition config_rows {C} (cfg : C) (scores : list Q) (k : nat) : list (C * Z * Q) :=
  map (fun j => (cfg, Z.of_nat (S j), nth j scores 0%Q)) (seq 0 k).

(** The row chosen among those satisfying [P]. *)
Definition picks {A} (key : A -> Z) (table : list A) (P : A -> Prop) (r : A) : Prop :=
  exists cands, subsequence cands table /\ (forall t, In t cands <-> In t table /\ P t) /\ first_smallest key cands r.

(** The number of configurations asked for. *)
Definition requested (params : list (Z * list Z)) (n : Z) : Z :=
  let size := Z.of_nat (grid_size (map snd params)) in
  if n =? 0 then size else Z.min n size.
