(** Specification vocabulary for recommendations. *)
From Coq Require Import ZArith List Bool Lia Permutation.
From Verif Require Import Prelude DataPrep_model Recommend_model.
Import ListNotations.
Open Scope Z_scope.

Section Spec.
  Context {A : Type} (leb : A -> A -> bool).

  (** The documented contract of [np.argpartition(a, kth)]: an index permutation
      that puts nothing larger before and nothing smaller after position kth. *)
  Definition argpartition_contract (argpart : nat -> list A -> nat -> list nat) : Prop :=
    forall i a kth, (kth < length a)%nat ->
      Permutation (argpart i a kth) (seq 0 (length a))
      /\ forall m x j n y,
           nth_error (argpart i a kth) kth = Some m -> nth_error a m = Some x ->
           nth_error (argpart i a kth) j = Some n -> nth_error a n = Some y ->
           ((j < kth)%nat -> leb y x = true) /\ ((kth <= j)%nat -> leb x y = true).

  (** Item [j] was seen by user [u]. *)
  Definition seen (st : rec_state A) (u j : Z) : Prop := In (u, j) (rs_history st).

  (** Candidate items: the whole catalogue, or its unseen part. *)
  Definition candidate (st : rec_state A) (filter_viewed : bool) (u j : Z) : Prop :=
    0 <= j < Z.of_nat (rs_n_items st) /\ (filter_viewed = true -> ~ seen st u j).

  (** [row] is a top-k of the candidates for the given scores. *)
  Definition is_top_k (st : rec_state A) (filter_viewed : bool) (u : Z)
             (scores : list A) (k : nat) (row : list Z) : Prop :=
    length row = k /\ NoDup row
    /\ (forall j, In j row -> candidate st filter_viewed u j)
    /\ (forall i j x y, In i row -> candidate st filter_viewed u j -> ~ In j row ->
          nth_error scores (Z.to_nat i) = Some x -> nth_error scores (Z.to_nat j) = Some y ->
          leb y x = true).

  (** The last item of a row has the lowest score in it. *)
  Definition last_is_lowest (scores : list A) (row : list Z) : Prop :=
    forall pre l j x y, row = pre ++ [l] -> In j row ->
      nth_error scores (Z.to_nat l) = Some x -> nth_error scores (Z.to_nat j) = Some y ->
      leb x y = true.

  (** External form of a row: every internal item id replaced by the item the
      mapping assigns to it. *)
  Definition translated (st : rec_state A) (irow row : list Z) : Prop :=
    Forall2 (fun j x => g_of (m_items (rs_mappings st)) j = Some x) irow row.

  (** [row] is what user [u] (internal id) must receive. *)
  Definition row_for (st : rec_state A) (filter_viewed internal : bool) (k : nat)
             (u : Z) (row : list Z) : Prop :=
    exists scores irow, rs_scores st u = Ok scores
      /\ is_top_k st filter_viewed u scores k irow /\ last_is_lowest scores irow
      /\ (if internal then row = irow else translated st irow row).
End Spec.

(** Number of unseen items of a user. *)
Definition n_unseen (history : list (Z * Z)) (n_items : nat) (u : Z) : nat :=
  length (filter (fun j => if in_dec (fun p q : Z * Z => ltac:(decide equality; apply Z.eq_dec)) (u, j) history
                           then false else true) (zrange n_items)).

(** Well-formed model state: histories inside the factor matrices, scores for
    every user row, item mapping covering the catalogue. *)
Definition wf_state {A} (st : rec_state A) : Prop :=
  (forall u j, In (u, j) (rs_history st) ->
     0 <= u < Z.of_nat (rs_n_users st) /\ 0 <= j < Z.of_nat (rs_n_items st))
  /\ (forall u, 0 <= u < Z.of_nat (rs_n_users st) ->
        exists s, rs_scores st u = Ok s /\ length s = rs_n_items st)
  /\ (forall k u, f_of (m_users (rs_mappings st)) k = Some u -> 0 <= u < Z.of_nat (rs_n_users st))
  /\ (forall j, 0 <= j < Z.of_nat (rs_n_items st) ->
        exists x, g_of (m_items (rs_mappings st)) j = Some x).
