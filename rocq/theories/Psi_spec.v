(** Specification vocabulary for the SVD/PSI bookkeeping. *)
From Coq Require Import ZArith List Bool Lia.
From Verif Require Import Prelude DataPrep_model DataPrep_spec Psi_model.
Import ListNotations.
Open Scope Z_scope.

Definition fu (st : psi_state) : Z -> option Z := f_of (m_users (ps_maps st)).
Definition fi (st : psi_state) : Z -> option Z := f_of (m_items (ps_maps st)).

(** Factors and mappings agree: ids are numbered 0 .. n-1 with n the number of
    embedding rows, and the history stays inside the factors. *)
Definition aligned (st : psi_state) : Prop :=
  bij (m_users (ps_maps st)) 0 /\ bij (m_items (ps_maps st)) 0
  /\ ps_n_users st = n_indices (m_users (ps_maps st))
  /\ ps_n_items st = n_indices (m_items (ps_maps st))
  /\ (forall u j, In (u, j) (ps_history st) -> 0 <= u < ps_n_users st /\ 0 <= j < ps_n_items st).

(** Where an entry (r, c) of the matrix of a step lands in the user-item matrix:
    new rows/columns are appended after the existing ones. *)
Definition landing (s : step_log) (r c : Z) : Z * Z :=
  match sl_mode s with
  | MNewUsers => (sl_users s + c, r)
  | MNewItems => (r, sl_items s + c)
  | MOld => (r, c)
  | MNew => (sl_users s + r, sl_items s + c)
  end.

(** Every row of the table of a step lands at the coordinates the mappings of
    [st] give to its ids, with its relevance. *)
Definition step_lands (st : psi_state) (s : step_log) : Prop :=
  Forall2 (fun (r : row) (e : Z * Z * Z) =>
      exists u i, fu st (r_user r) = Some u /\ fi st (r_item r) = Some i
        /\ landing s (fst (fst e)) (snd (fst e)) = (u, i) /\ snd e = r_rel r)
    (sl_data s) (da_entries (sl_da s)).

(** What a step may assume about its rows, for the mappings [ms] before it. *)
Definition admissible (ms : mappings) (md : mode) (r : row) : Prop :=
  let ku := f_of (m_users ms) (r_user r) in
  let ki := f_of (m_items ms) (r_item r) in
  match md with
  | MNewUsers => ku = None /\ ki <> None
  | MNewItems => ku <> None /\ ki = None
  | MOld => ku <> None /\ ki <> None
  | MNew => ku = None /\ ki = None
  end.

(** ** How a chunk is split, in terms of the state before the update *)
Definition unknown_user (st : psi_state) (r : row) : bool :=
  match fu st (r_user r) with Some _ => false | None => true end.
Definition unknown_item (st : psi_state) (r : row) : bool :=
  match fi st (r_item r) with Some _ => false | None => true end.

(** Rows of an unknown user with an unknown item. *)
Definition part_new (st : psi_state) (data : list row) : list row :=
  filter (fun r => unknown_user st r && unknown_item st r) data.
(** Rows of unknown users that occur in no row of the first kind. *)
Definition part_new_users (st : psi_state) (data : list row) : list row :=
  filter (fun r => unknown_user st r
                   && negb (memZ (r_user r) (map r_user (part_new st data)))) data.
(** Rows of unknown items that occur in no row of the first kind. *)
Definition part_new_items (st : psi_state) (data : list row) : list row :=
  filter (fun r => unknown_item st r
                   && negb (memZ (r_item r) (map r_item (part_new st data)))) data.
(** All other rows. *)
Definition part_old (st : psi_state) (data : list row) : list row :=
  filter (fun r => negb (unknown_user st r && unknown_item st r)
                   && negb (unknown_user st r
                            && negb (memZ (r_user r) (map r_user (part_new st data))))
                   && negb (unknown_item st r
                            && negb (memZ (r_item r) (map r_item (part_new st data))))) data.

(** The (mode, table) pairs of the non-empty steps of an update. *)
Definition nonempty (s : mode * list row) : bool := match snd s with [] => false | _ => true end.
Definition expected_steps (cfg : psi_cfg) (st : psi_state) (data : list row) : list (mode * list row) :=
  filter nonempty
    [ (MNew, part_new st data); (MNewUsers, part_new_users st data);
      (MNewItems, part_new_items st data);
      (MOld, match cf_init cfg, cf_integrator cfg with
             | INone, _ => part_old st data
             | _, false => filter (fun r => negb (unknown_user st r && unknown_item st r)) data
             | _, true => data
             end) ].

(** Size condition of the incremental SVD used without embedding initialisation:
    no more new vectors than rows. *)
Definition brand_ok (st : psi_state) (data : list row) : Prop :=
  Z.of_nat (ndistinct (map r_user (part_new_users st data)))
    <= ps_n_items st + Z.of_nat (ndistinct (map r_item (part_new st data)))
  /\ Z.of_nat (ndistinct (map r_item (part_new_items st data)))
     <= ps_n_users st + Z.of_nat (ndistinct (map r_user (part_new st data)))
        + Z.of_nat (ndistinct (map r_user (part_new_users st data))).

(** Steps whose matrix values reach the factors: with zero or random initial
    embeddings the new-user and new-item steps only add rows; with the integrator
    option so does the new-new step. *)
Definition uses_values (cfg : psi_cfg) (md : mode) : bool :=
  match cf_init cfg, md with
  | INone, _ => true
  | _, MOld => true
  | _, MNew => negb (cf_integrator cfg)
  | _, _ => false
  end.
