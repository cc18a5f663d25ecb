(** Vocabulary for the experiment with the re-initialised sequential model, in terms of the raw
    tables: what the model may recommend are the items of all tables so far ([E]), without
    those the user has in the present one ([P]). *)
From Coq Require Import ZArith QArith List Bool.
From Verif Require Import Prelude DataPrep_model DataPrep_spec Eval_spec History_model Recommend_model Full_spec Seqx_spec.
Import ListNotations.
Open Scope Z_scope.

(** The successive tables: every chunk is appended and the result is cropped again. *)
Definition successive (L : nat) (data : list prow) (stream : list (list row)) (n : nat) (tables : nat -> list prow) : Prop :=
  tables 0%nat = data /\
  forall t c, (t < n)%nat -> nth_error stream t = Some c ->
    get_df_with_cropped_pos_column (map p_row (tables t) ++ c) L true = Ok (tables (S t)).
Definition kept (tables : nat -> list prow) (t : nat) : list row := map p_row (tables t).
Definition so_far (tables : nat -> list prow) (t : nat) : list row := concat (map (kept tables) (seq 0 (S t))).

Definition open_to (E P : list row) (u : Z) : list Z := filter (fun i => negb (took P u i)) (catalogue E).
Definition serves_from (k : nat) (E P : list row) (u : Z) : Prop := In u (map r_user P) /\ (k <= length (open_to E P u))%nat.
Definition offer_from (k : nat) (E P : list row) (u : Z) (row : list Z) : Prop :=
  length row = k /\ NoDup row /\ incl row (open_to E P u).
Definition testable_from (k : nat) (test_users : list Z) (E P c : list row) : Prop :=
  (exists r, In r c /\ heard E r = true) /\
  (forall r, In r c -> heard E r = true -> serves_from k E P (r_user r)) /\
  (forall u, In u test_users -> serves_from k E P u).
Definition report_from (k : nat) (chosen : Z -> list Z -> Prop) (E P c : list row) (h q : Q) : Prop :=
  exists sel rows rrs, tested E c sel /\ sel <> [] /\
    Forall2 (fun r row => offer_from k E P (r_user r) row /\ chosen (r_user r) row) sel rows /\
    (h == inject_Z (Z.of_nat (hits rows (map r_item sel))) / inject_Z (Z.of_nat (length sel)))%Q /\
    Forall2 (fun rt x => RR (fst rt) (snd rt) x) (combine rows (map r_item sel)) rrs /\
    (q == Qsum rrs / inject_Z (Z.of_nat (length sel)))%Q.
Definition best_from {A : Type} (leb : A -> A -> bool) (st : rec_state A) (E P : list row) (u : Z) (row : list Z) : Prop :=
  forall i j x y, In i row -> In j (open_to E P u) -> ~ In j row ->
    score_of st u i = Some x -> score_of st u j = Some y -> leb y x = true.

(** The item that was the last to come in for the first time. *)
Definition newest (l : list Z) (i : Z) : Prop := exists a b, l = a ++ i :: b /\ ~ In i a /\ incl b (i :: a).
(** After chunk [t] the newest item is still in the table. *)
Definition newest_stays (tables : nat -> list prow) (t : nat) : Prop :=
  exists i, newest (map r_item (so_far tables (S t))) i /\ In i (map r_item (kept tables (S t))).

(** What [n] steps need. *)
Definition reinitialisable (r0 r1 r2 L k : nat) (test_users : list Z) (stream : list (list row)) (tables : nat -> list prow) (n : nat) : Prop :=
  seq_trainable r0 r1 r2 L (kept tables 0) /\
  (forall t c, (t < n)%nat -> nth_error stream t = Some c ->
     testable_from k test_users (so_far tables t) (kept tables t) c /\ newest_stays tables t) /\
  ((2 <= n)%nat -> test_users <> []).
(** The same without asking for test users. *)
Definition reinit_served (r0 r1 r2 L k : nat) (test_users : list Z) (stream : list (list row)) (tables : nat -> list prow) (n : nat) : Prop :=
  seq_trainable r0 r1 r2 L (kept tables 0) /\
  (forall t c, (t < n)%nat -> nth_error stream t = Some c ->
     testable_from k test_users (so_far tables t) (kept tables t) c /\ newest_stays tables t).
