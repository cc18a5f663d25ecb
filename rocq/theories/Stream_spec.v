(** Independent vocabulary for the stream preparation properties. *)
From Coq Require Import ZArith List Bool Sorting.Sorted Sorting.Permutation.
Import ListNotations.
Open Scope Z_scope.

(** Number of actions of a list of (date, count) pairs. *)
Definition total (b : list (Z * Z)) : Z := fold_right (fun x s => snd x + s) 0 b.

Definition increasing (l : list Z) : Prop := StronglySorted Z.lt l.

(** A block exceeds the minimum, and no earlier stop would. *)
Definition closed (hm : Z) (b : list (Z * Z)) : Prop :=
  b <> [] /\ hm < total b /\ forall p q, b = p ++ q -> p <> [] -> q <> [] -> total p <= hm.
(** No non-empty prefix exceeds the minimum. *)
Definition unfinished (hm : Z) (b : list (Z * Z)) : Prop :=
  forall p q, b = p ++ q -> p <> [] -> total p <= hm.

Definition first_date (b : list (Z * Z)) : Z := fst (hd (0, 0) b).
Definition last_date (b : list (Z * Z)) : Z := fst (last b (0, 0)).

(** Every date of a block carries the first date of the block. *)
Definition labelled (b : list (Z * Z)) : list (Z * Z) := map (fun x => (fst x, first_date b)) b.

(** Labels of closed blocks followed by an unfinished tail: the last date of the tail
    carries the date before it, whatever that date's own label is. *)
Definition date_labels (blocks : list (list (Z * Z))) (tail : list (Z * Z)) : list (Z * Z) :=
  concat (map labelled blocks) ++
  match tail with
  | [] => []
  | _ =>
    map (fun x => (fst x, first_date tail)) (removelast tail) ++
    [(last_date tail, last (map fst (concat blocks ++ removelast tail)) (last_date tail))]
  end.

(** The entries carrying label [g]. *)
Definition members (counts labels : list (Z * Z)) (g : Z) : list (Z * Z) :=
  map fst (filter (fun cl => snd (snd cl) =? g) (combine counts labels)).

(** Contract of a sort by a key: some permutation in ascending order. *)
Definition sorts_by {A} (key : A -> Z) (sorter : list A -> list A) : Prop :=
  forall l, Permutation l (sorter l) /\ StronglySorted (fun x y => key x <= key y) (sorter l).

(** [x] is the [k]-th smallest value of [l], counted from 0. *)
Definition order_statistic (l : list Z) (k : nat) (x : Z) : Prop :=
  In x l /\ (length (filter (fun y => (y <? x)%Z) l) <= k < length (filter (fun y => (y <=? x)%Z) l))%nat.

(** Day [d] is one of the [n] first days of the rows (user, day). *)
Definition early (n : nat) (left : list (Z * Z)) (d : Z) : Prop :=
  In d (map snd left) /\ (length (filter (fun x => (x <? d)%Z) (nodup Z.eq_dec (map snd left))) < n)%nat.
(** A known user with a row on one of these days. *)
Definition eligible (n : nat) (initial_users : list Z) (left : list (Z * Z)) (u : Z) : Prop :=
  In u initial_users /\ exists d, In (u, d) left /\ early n left d.
(** [k] is the number of the early days on which [u] is active. *)
Definition active_days (n : nat) (left : list (Z * Z)) (u : Z) (k : nat) : Prop :=
  exists ds, NoDup ds /\ length ds = k /\ forall d, In d ds <-> In (u, d) left /\ early n left d.

(** A stream of keyed groups and the remaining rows with their keys: together the groups
    are the rows [rest], keys ascend, no group is empty, rows of a later group are of a
    strictly later day, and [left] lists the key of every row. *)
Definition stream_ok {A} (day : A -> Z) (rest : list A) (stream : list (Z * list A)) (left : list (A * Z)) : Prop :=
  Permutation (concat (map snd stream)) rest /\
  increasing (map fst stream) /\
  (forall k g, In (k, g) stream -> g <> []) /\
  (forall k g k' g' r r', In (k, g) stream -> In (k', g') stream -> In r g -> In r' g' -> k < k' -> day r < day r') /\
  (forall r k, In (r, k) left <-> exists g, In (k, g) stream /\ In r g).
