(** Independent vocabulary for the properties of the surrounding scripts. *)
From Coq Require Import ZArith List Bool Sorting.Sorted.
From Verif Require Import Prelude DataPrep_model DataPrep_spec Psi_model Tables_model.
Import ListNotations.
Open Scope Z_scope.

(** [d] is the midnight nearest to [t]; at noon, the one with an even number. *)
Definition nearest_midnight (t d : Z) : Prop :=
  exists k, d = 86400 * k /\ Z.abs (t - d) <= 43200 /\ (Z.abs (t - d) = 43200 -> Z.Even k).

(** What the reader of a prepared table can rely on. *)
Definition chronological (t : list trow) : Prop :=
  map tb_index t = zrange (length t)
  /\ StronglySorted (fun x y => tb_time x <= tb_time y) t
  /\ StronglySorted (fun x y => tb_day x <= tb_day y) t
  /\ (forall r, In r t -> nearest_midnight (tb_time r) (tb_day r) /\ tb_rel r = 1).

(** Ids of a column of a chunk that were not there before. *)
Definition first_seen (before chunk : list Z) : list Z :=
  filter (fun x => negb (memZ x before)) chunk.

(** Rows of a chunk whose user and item are both not there before. *)
Definition both_new (users items : list Z) (chunk : list row) : list row :=
  filter (fun r => negb (memZ (r_user r) users) && negb (memZ (r_item r) items)) chunk.

(** Number of distinct ids handled by the steps of one mode of an update. *)
Definition mode_eqb (a b : mode) : bool :=
  match a, b with
  | MNew, MNew | MNewUsers, MNewUsers | MNewItems, MNewItems | MOld, MOld => true
  | _, _ => false
  end.
Definition step_ids (key : row -> Z) (md : mode) (l : list step_log) : nat :=
  ndistinct (map key (concat (map sl_data (filter (fun s => mode_eqb (sl_mode s) md) l)))).
