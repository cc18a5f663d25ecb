(** Model of the [recommend] methods: source/models/svd.py:77-103,
    source/models/tdrec.py:266-309, source/models/random_rec.py:49-74. *)
From Coq Require Import ZArith List Bool Lia.
From Verif Require Import Prelude DataPrep_model.
Import ListNotations.
Open Scope Z_scope.

Section Recommend.
  (** Scores: any type; only the comparison made by [argpartition] matters. *)
  Context {A : Type}.

  (** [np.argpartition] at the i-th user: array and (non-negative) kth give an
      index array.  Its contract is stated in Recommend_spec. *)
  Variable argpart : nat -> list A -> nat -> list nat.

  (** [np.argpartition(a, -k)[-k:][::-1]] for k >= 1: ValueError when kth is out
      of bounds. *)
  Definition top_positions (i : nat) (a : list A) (k : nat) : res (list nat) :=
    if (length a <? k)%nat then Err ValueError
    else Ok (rev (lastn k (argpart i a (length a - k)))).

  (** [items_array[mask][idx]]: integer indexing, IndexError when out of range. *)
  Definition take_all (cand : list Z) (idx : list nat) : res (list Z) :=
    mapM (fun j => match nth_error cand j with Some x => Ok x | None => Err IndexError end) idx.

  (** One row of the 0/1 history matrix, source/models/svd.py:64-72 and
      source/models/svd.py:94; [n_items] columns. *)
  Definition viewed_mask (history : list (Z * Z)) (n_items : nat) (u : Z) : list bool :=
    map (fun j => existsb (fun p => (fst p =? u) && (snd p =? j)) history) (zrange n_items).

  (** [_raw_history_to_csr]: coo_matrix raises ValueError when an index is outside
      the given shape. *)
  Definition history_fits (history : list (Z * Z)) (n_users n_items : nat) : bool :=
    forallb (fun p => (0 <=? fst p) && (fst p <? Z.of_nat n_users)
                      && (0 <=? snd p) && (snd p <? Z.of_nat n_items)) history.

  Record rec_state := mkRec {
    rs_mappings : mappings;
    rs_n_users : nat;
    rs_n_items : nat;
    rs_history : list (Z * Z);
    rs_scores : Z -> res (list A)   (* _recommend_user *)
  }.

  (** Loop body, source/models/svd.py:91-102.  [k] is already min(k, n_items).
      The [squeeze] of a one-item catalogue yields a 0-dimensional mask; the
      looked up keys are then arrays, hence TypeError unless [internal]. *)
  Definition recommend_user (st : rec_state) (filter_viewed internal : bool) (k : nat)
             (i : nat) (u : Z) : res (list Z) :=
    do scores <- rs_scores st u;
    do cand <-
      (if filter_viewed then
         if (0 <=? u) && (u <? Z.of_nat (rs_n_users st)) then
           let unseen := map negb (viewed_mask (rs_history st) (rs_n_items st) u) in
           do idx <- top_positions i (select unseen scores) k;
           do c <- take_all (select unseen (zrange (rs_n_items st))) idx;
           if (rs_n_items st =? 1)%nat && negb internal then Err TypeError else Ok c
         else Err IndexError
       else
         do idx <- top_positions i scores k;
         Ok (map Z.of_nat idx));
    if internal then Ok cand
    else mapM (fun j => getitem (new2old (m_items (rs_mappings st))) j) cand.

  Fixpoint recommend_loop (st : rec_state) (filter_viewed internal : bool) (k : nat)
           (i : nat) (us : list Z) : res (list (list Z)) :=
    match us with
    | [] => Ok []
    | u :: r =>
      do row <- recommend_user st filter_viewed internal k i u;
      do rows <- recommend_loop st filter_viewed internal k (S i) r;
      Ok (row :: rows)
    end.

  (** source/models/svd.py:77-103.  TDRec evaluates the history matrix before the
      user lookup; the order only matters when both fail.  Simplifications:
      k >= 1; the result array of floats cast to int is exact (ids below 2^53). *)
  Definition recommend (st : rec_state) (users : list Z) (k : nat)
             (filter_viewed internal : bool) : res (list (list Z)) :=
    do mapped <- mapM (fun uid => getitem (old2new (m_users (rs_mappings st))) uid) users;
    let k := Nat.min k (rs_n_items st) in
    if filter_viewed && negb (history_fits (rs_history st) (rs_n_users st) (rs_n_items st))
    then Err ValueError
    else recommend_loop st filter_viewed internal k 0 mapped.
End Recommend.
Arguments rec_state : clear implicits.
