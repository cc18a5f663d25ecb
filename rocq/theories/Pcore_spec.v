(** Independent vocabulary for the table cleaning properties. *)
From Coq Require Import ZArith List Bool.
Import ListNotations.
Open Scope Z_scope.

(** [s] is obtained from [l] by deleting rows (order kept). *)
Inductive subsequence {A} : list A -> list A -> Prop :=
| sub_nil : subsequence [] []
| sub_drop x s l : subsequence s l -> subsequence s (x :: l)
| sub_keep x s l : subsequence s l -> subsequence (x :: s) (x :: l).

(** At least [p] rows of [l] satisfy [P]. *)
Definition at_least {A} (p : Z) (P : A -> Prop) (l : list A) : Prop :=
  exists s, subsequence s l /\ (forall x, In x s -> P x) /\ p <= Z.of_nat (length s).

(** Every user and every item of the table occurs at least [p] times in it. *)
Definition p_core {A} (user item : A -> Z) (p : Z) (l : list A) : Prop :=
  forall r, In r l ->
    at_least p (fun x => user x = user r) l /\ at_least p (fun x => item x = item r) l.

(** [c] is the largest p-core of [l]. *)
Definition largest_core {A} (user item : A -> Z) (p : Z) (c l : list A) : Prop :=
  subsequence c l /\ p_core user item p c /\
  (forall s, subsequence s l -> p_core user item p s -> subsequence s c).

(** [codes] renumbers [values]: the codes are 0, ..., n-1 and compare like the values. *)
Definition renumbers (values codes : list Z) : Prop :=
  length codes = length values /\
  (forall i j x y a b,
     nth_error values i = Some x -> nth_error values j = Some y ->
     nth_error codes i = Some a -> nth_error codes j = Some b -> (a < b <-> x < y)) /\
  (exists n : nat, forall c, In c codes <-> 0 <= c < Z.of_nat n).
