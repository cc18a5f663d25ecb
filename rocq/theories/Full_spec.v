(** Vocabulary for whole experiments, in terms of the raw tables only. *)
From Coq Require Import ZArith QArith List Bool.
From Verif Require Import Prelude DataPrep_model DataPrep_spec Eval_spec Recommend_model Psi_model.
Import ListNotations.
Open Scope Z_scope.

(** The rows a model has been given before chunk [t], if it keeps [keep c] of a chunk [c]. *)
Definition past (keep : list row -> list row) (initial : list row) (stream : list (list row)) (t : nat) : list row :=
  initial ++ concat (map keep (firstn t stream)).

(** Both ids of the row occur in [P]; user [u] has item [i] in [P]. *)
Definition heard (P : list row) (r : row) : bool :=
  memZ (r_user r) (map r_user P) && memZ (r_item r) (map r_item P).
Definition took (P : list row) (u i : Z) : bool := existsb (fun r => (r_user r =? u) && (r_item r =? i)) P.

(** The different items of [P]; those user [u] does not have. *)
Definition catalogue (P : list row) : list Z := nodup Z.eq_dec (map r_item P).
Definition unseen (P : list row) (u : Z) : list Z := filter (fun i => negb (took P u i)) (catalogue P).

(** [k] items can be recommended to user [u]; a list of such items. *)
Definition serves (k : nat) (P : list row) (u : Z) : Prop := In u (map r_user P) /\ (k <= length (unseen P u))%nat.
Definition offer (k : nat) (P : list row) (u : Z) (row : list Z) : Prop :=
  length row = k /\ NoDup row /\ incl row (unseen P u).

(** What one step over a chunk [c] needs: a row to be tested, [k] items for each of the
    users concerned. *)
Definition testable (k : nat) (test_users : list Z) (P c : list row) : Prop :=
  (exists r, In r c /\ heard P r = true) /\
  (forall r, In r c -> heard P r = true -> serves k P (r_user r)) /\
  (forall u, In u test_users -> serves k P u).

(** What [n] steps need; [fits P c] says that a model given the rows [P] takes the chunk. *)
Definition feasible (k : nat) (fits : list row -> list row -> Prop) (keep : list row -> list row) (test_users : list Z)
    (initial : list row) (stream : list (list row)) (n : nat) : Prop :=
  (forall t c, (t < n)%nat -> nth_error stream t = Some c ->
     testable k test_users (past keep initial stream t) c /\ fits (past keep initial stream t) c) /\
  ((2 <= n)%nat -> test_users <> []).

(** The rows tested in a chunk: the first row of each user with both ids heard of. *)
Definition tested (P c sel : list row) : Prop := FirstPerKey r_user [] (filter (heard P) c) sel.

(** What is reported on a chunk [c]: every tested user gets a list of [k] unseen items
    ([chosen] says how they were chosen); [h] is the share of users whose item is in their
    list and [q] the mean reciprocal rank. *)
Definition step_report (k : nat) (chosen : Z -> list Z -> Prop) (P c : list row) (h q : Q) : Prop :=
  exists sel rows rrs, tested P c sel /\ sel <> [] /\
    Forall2 (fun r row => offer k P (r_user r) row /\ chosen (r_user r) row) sel rows /\
    (h == inject_Z (Z.of_nat (hits rows (map r_item sel))) / inject_Z (Z.of_nat (length sel)))%Q /\
    Forall2 (fun rt x => RR (fst rt) (snd rt) x) (combine rows (map r_item sel)) rrs /\
    (q == Qsum rrs / inject_Z (Z.of_nat (length sel)))%Q.

Section Scores.
  Context {A : Type} (leb : A -> A -> bool).
  (** The score of an item for a user in a recommender, both by their ids. *)
  Definition score_of (st : rec_state A) (u i : Z) : option A :=
    match f_of (m_users (rs_mappings st)) u, f_of (m_items (rs_mappings st)) i with
    | Some a, Some b => match rs_scores st a with Ok s => nth_error s (Z.to_nat b) | Err _ => None end
    | _, _ => None
    end.
  (** No unseen item outside the list has a higher score than one in it. *)
  Definition best (st : rec_state A) (P : list row) (u : Z) (row : list Z) : Prop :=
    forall i j x y, In i row -> In j (unseen P u) -> ~ In j row ->
      score_of st u i = Some x -> score_of st u j = Some y -> leb y x = true.
End Scores.

(** ** Sizes, in terms of the rows given so far *)
Definition n_users_in (P : list row) : Z := Z.of_nat (ndistinct (map r_user P)).
Definition n_items_in (P : list row) : Z := Z.of_nat (ndistinct (map r_item P)).
(** The rank is below the numbers of users and items. *)
Definition trainable (rank : Z) (P : list row) : Prop := 0 < rank /\ rank < n_users_in P /\ rank < n_items_in P.

(** Rows of a chunk with a new user and a new item; the other rows of new users, and of new
    items, that occur in none of those. *)
Definition new_user (P : list row) (r : row) : bool := negb (memZ (r_user r) (map r_user P)).
Definition new_item (P : list row) (r : row) : bool := negb (memZ (r_item r) (map r_item P)).
Definition new_pairs (P c : list row) : list row := filter (fun r => new_user P r && new_item P r) c.
Definition new_users_only (P c : list row) : list row :=
  filter (fun r => new_user P r && negb (memZ (r_user r) (map r_user (new_pairs P c)))) c.
Definition new_items_only (P c : list row) : list row :=
  filter (fun r => new_item P r && negb (memZ (r_item r) (map r_item (new_pairs P c)))) c.
(** No more new vectors than the incremental SVD can take. *)
Definition brand_fits (P c : list row) : Prop :=
  n_users_in (new_users_only P c) <= n_items_in P + n_items_in (new_pairs P c) /\
  n_items_in (new_items_only P c) <= n_users_in P + n_users_in (new_pairs P c) + n_users_in (new_users_only P c).

(** What an update of PSI takes, by its options. *)
Definition psi_fits (cfg : psi_cfg) (P c : list row) : Prop :=
  match cf_init cfg, cf_integrator cfg with
  | INone, true => False
  | INone, false => brand_fits P c
  | _, _ => True
  end.
