(** Vocabulary for whole experiments with the sequential models, in terms of the raw tables. *)
From Coq Require Import ZArith List Bool.
From Verif Require Import Prelude DataPrep_model DataPrep_spec History_model History_spec Recommend_model Psi_model Tirec_model Tirec_spec Full_spec.
Import ListNotations.
Open Scope Z_scope.

(** [keep c] holds the rows of a table [c] that cropping keeps, each user's in order. *)
Definition crops (L : nat) (sort_bool : bool) (keep : list row -> list row) : Prop :=
  forall c u, kept_rows L sort_bool c u (rows_of u (keep c)).

(** The last [L] items of a user. *)
Definition recent (L : nat) (P : list row) (u : Z) : list Z := lastn L (map r_item (rows_of u P)).

(** The ranks fit together and into the table; some user has [L] rows. *)
Definition seq_trainable (r0 r1 r2 L : nat) (P : list row) : Prop :=
  (r0 <= r1 * r2 /\ r1 <= r0 * r2 /\ r2 <= r0 * r1 /\ r2 <= L)%nat /\
  Z.of_nat r0 <= n_users_in P /\ Z.of_nat r1 <= n_items_in P /\ exists u, length (rows_of u P) = L.

(** What an update takes: the chunk changes some user's last [L] items; TIRec's incremental SVD
    needs no more new vectors than cells per vector. *)
Definition seq_fits (v : variant) (L : nat) (keep : list row -> list row) (P c : list row) : Prop :=
  (exists u, recent L (P ++ keep c) u <> recent L P u) /\
  (v = VTIRec ->
   n_users_in (new_users_only P (keep c)) <= (n_items_in P + n_items_in (new_pairs P (keep c))) * Z.of_nat L /\
   n_items_in (new_items_only P (keep c))
     <= (n_users_in P + n_users_in (new_pairs P (keep c)) + n_users_in (new_users_only P (keep c))) * Z.of_nat L).
