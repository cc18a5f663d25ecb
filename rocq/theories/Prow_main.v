(** What the models are given, by the columns. *)
From Coq Require Import ZArith List.
From Verif Require Import Prelude DataPrep_model Tables_model Pipe_model Prow_spec.
Import ListNotations.
Open Scope Z_scope.

Lemma content_rows l : Forall2 model_row l (map content l).
Proof. induction l as [|t l IH]; constructor; auto. repeat split. Qed.
Lemma content_groups l : Forall2 (Forall2 model_row) l (map (map content) l).
Proof. induction l as [|t l IH]; constructor; auto. apply content_rows. Qed.
