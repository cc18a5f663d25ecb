(** Specification vocabulary for id mappings; independent of how the mapping
    structs are stored or built. *)
From Coq Require Import ZArith List.
From Verif Require Import DataPrep_model.
Import ListNotations.
Open Scope Z_scope.

(** [f] (id to index) and [g] (index to id) are mutually inverse and the
    indices in use are exactly [lo .. lo+n-1]. *)
Definition contiguous_bijection (f g : Z -> option Z) (lo n : Z) : Prop :=
  0 <= n
  /\ (forall k v, f k = Some v <-> g v = Some k)
  /\ (forall v, (exists k, g v = Some k) <-> lo <= v < lo + n).

(** A mapping struct is a contiguous bijection starting at [lo]. *)
Definition bij (m : mapping) (lo : Z) : Prop :=
  contiguous_bijection (f_of m) (g_of m) lo (n_indices m).

(** Number of distinct values in a list. *)
Definition ndistinct (l : list Z) : nat := length (nodup Z.eq_dec l).

(** [r'] is [r] with user and item replaced by their indices, and the
    translations take the indices back to the ids of [r]. *)
Definition reindexed (fu fi gu gi : Z -> option Z) (r r' : row) : Prop :=
  fu (r_user r) = Some (r_user r') /\ gu (r_user r') = Some (r_user r)
  /\ fi (r_item r) = Some (r_item r') /\ gi (r_item r') = Some (r_item r)
  /\ r_ts r' = r_ts r /\ r_rel r' = r_rel r.

(** Both ids of a row have an index. *)
Definition known (ms : mappings) (r : row) : bool :=
  match f_of (m_users ms) (r_user r), f_of (m_items ms) (r_item r) with
  | Some _, Some _ => true
  | _, _ => false
  end.

(** A selection of one row per key: [FirstPerKey key seen rows sel] says that
    [sel] consists, in order, of the rows whose key is neither in [seen] nor
    the key of an earlier row. *)
Inductive FirstPerKey {R : Type} (key : R -> Z) : list Z -> list R -> list R -> Prop :=
| FPK_nil seen : FirstPerKey key seen [] []
| FPK_skip seen r rows sel :
    In (key r) seen -> FirstPerKey key seen rows sel ->
    FirstPerKey key seen (r :: rows) sel
| FPK_take seen r rows sel :
    ~ In (key r) seen -> FirstPerKey key (key r :: seen) rows sel ->
    FirstPerKey key seen (r :: rows) (r :: sel).

(** [l'] is [l] with elements dropped (order kept). *)
Inductive Sublist {A : Type} : list A -> list A -> Prop :=
| Sub_nil : Sublist [] []
| Sub_drop x l' l : Sublist l' l -> Sublist l' (x :: l)
| Sub_keep x l' l : Sublist l' l -> Sublist (x :: l') (x :: l).
