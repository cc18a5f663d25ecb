(** Vocabulary of C103: rows with other timestamps or relevances. *)
From Coq Require Import ZArith List.
From Verif Require Import Prelude DataPrep_model History_model Psi_model Matrix_model LinAlg_model Num_model Tables_model Pipe_model.
Import ListNotations.
Open Scope Z_scope.

(** The row with timestamp [t r] and relevance [w r]; user and item stay. *)
Definition retime (t : row -> Z) (r : row) : row := mkRow (r_user r) (r_item r) (t r) (r_rel r).
Definition reweigh (t w : row -> Z) (r : row) : row := mkRow (r_user r) (r_item r) (t r) (w r).
Definition retime_t (t : row -> Z) (r : trow) : trow :=
  mkT (tb_index r) (tb_user r) (tb_item r) (t (content r)) (tb_day r) (tb_rel r).

(** The new timestamps order the rows of each user as the old ones did. *)
Definition same_order (t : row -> Z) : Prop :=
  forall r r', r_user r = r_user r' -> (t r <= t r' <-> r_ts r <= r_ts r').

(** An object of the matrix models whose ghost log holds the rows with the new timestamps:
    all attributes of the Python object are the same. *)
Definition relog (t : row -> Z) (s : psi_state) : psi_state :=
  mkPsi (ps_maps s) (ps_n_users s) (ps_n_items s) (ps_history s)
    (map (fun l => mkStep (sl_mode l) (sl_users l) (sl_items l) (map (retime t) (sl_data l)) (sl_da l)) (ps_log s)).
Definition relog_num {A} (t : row -> Z) (x : @num_state A) : @num_state A := mkNum (relog t (nm_book x)) (nm_f x).

(** What the Python object of a matrix model holds. *)
Definition attributes {A} (x : @num_state A) :=
  (ps_maps (nm_book x), ps_n_users (nm_book x), ps_n_items (nm_book x), ps_history (nm_book x), nm_f x).
