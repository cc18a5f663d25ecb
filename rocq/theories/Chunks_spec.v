(** Vocabulary for comparing two ways of cutting the same interactions into chunks. *)
From Coq Require Import ZArith List Bool Sorted.
From Verif Require Import Prelude DataPrep_model DataPrep_spec History_model History_spec Psi_model Psi_spec Tirec_model.
Import ListNotations.
Open Scope Z_scope.

(** Every user has the same rows in the same order in both. *)
Definition same_histories (P P' : list row) : Prop := forall u, rows_of u P = rows_of u P'.

(** Every user's rows come in the order of their timestamps. *)
Definition chronological (P : list row) : Prop :=
  forall u, StronglySorted (fun a b => r_ts a <= r_ts b) (rows_of u P).

(** No user has more than [L] rows in one of the chunks. *)
Definition short_chunks (L : nat) (chunks : list (list row)) : Prop :=
  forall c u, In c chunks -> (length (rows_of u c) <= L)%nat.

(** ** A sequential model seen through the ids *)
Definition ti_user (st : ti_state) : Z -> option Z := f_of (m_users (ti_maps st)).
Definition ti_item (st : ti_state) : Z -> option Z := f_of (m_items (ti_maps st)).

(** The window of a user: the item ids, and [None] for a padding. *)
Definition window (st : ti_state) (u : Z) : option (list (option Z)) :=
  match ti_user st u with
  | None => None
  | Some x => match dget x (ti_seq st) with
              | None => None
              | Some d => Some (map (g_of (m_items (ti_maps st))) (dq_items d))
              end
  end.

(** The last [L] items of a user, padded on the left. *)
Definition padded_items (L : nat) (P : list row) (u : Z) : list (option Z) :=
  lastn L (repeat None L ++ map (fun r => Some (r_item r)) (rows_of u P)).

(** The model excludes item [i] for user [u]. *)
Definition ti_seen (st : ti_state) (u i : Z) : Prop :=
  exists x j, ti_user st u = Some x /\ ti_item st i = Some j /\ In (x, j) (ti_history st).
Definition psi_seen (st : psi_state) (u i : Z) : Prop :=
  exists x j, fu st u = Some x /\ fi st i = Some j /\ In (x, j) (ps_history st).
