(** Specification vocabulary for repeated training. *)
From Coq Require Import ZArith List Bool Lia.
From Verif Require Import Prelude DataPrep_model DataPrep_spec History_model History_spec
  Tirec_model Tirec_spec.
Import ListNotations.
Open Scope Z_scope.

(** Rows of one user, with positions, in table order. *)
Definition prows_of (u : Z) (data : list prow) : list prow :=
  filter (fun p => r_user (p_row p) =? u) data.

(** [is] are the items of user [u] in position order, translated by [fi]. *)
Definition items_in_order (fi : Z -> option Z) (data : list prow) (u : Z) (is : list Z) : Prop :=
  exists x, StableSorted p_pos (prows_of u data) x
            /\ Forall2 (fun p i => fi (r_item (p_row p)) = Some i) x is.

(** Items that training on [data] contributes to the history of internal user [ui];
    none when no user of the table has this index. *)
Definition contributes (ms : mappings) (data : list prow) (ui : Z) (is : list Z) : Prop :=
  match g_of (m_users ms) ui with
  | None => is = []
  | Some u => items_in_order (f_of (m_items ms)) data u is
  end.

(** The tensor entries of a table: each row's own internal user, item, position
    and relevance, in table order. *)
Definition own_entries (ms : mappings) (data : list prow) (own : list entry) : Prop :=
  Forall2 (fun p e => f_of (m_users ms) (r_user (p_row p)) = Some (t_user (fst e))
                      /\ f_of (m_items ms) (r_item (p_row p)) = Some (t_item (fst e))
                      /\ t_pos (fst e) = p_pos p
                      /\ snd e = r_rel (p_row p)) data own.

(** (user, position) order on tensor cells. *)
Definition user_pos_le (a b : triple) : Prop :=
  t_user a < t_user b \/ (t_user a = t_user b /\ t_pos a <= t_pos b).

(** Ids are numbered 0 .. n-1 with n the number of rows of the factors. *)
Definition sized (st : ti_state) : Prop :=
  bij (m_users (ti_maps st)) 0 /\ bij (m_items (ti_maps st)) 0
  /\ nusers st = n_indices (m_users (ti_maps st)) /\ nitems st = n_indices (m_items (ti_maps st)).
