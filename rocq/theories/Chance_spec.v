(** Vocabulary for recommendations drawn by chance. *)
From Coq Require Import ZArith QArith List Bool Permutation.
From Verif Require Import Prelude DataPrep_model Recommend_model Eval_spec.
Import ListNotations.

(** Two entries of a vector exchanged. *)
Definition exchange {A} (a b : nat) (s : list A) : list A :=
  match nth_error s a, nth_error s b with
  | Some x, Some y => map (fun js => if Nat.eqb (fst js) a then y else if Nat.eqb (fst js) b then x else snd js) (combine (seq 0 (length s)) s)
  | _, _ => s
  end.
(** The same in entry [i] of a list of vectors. *)
Fixpoint on_entry {X} (i : nat) (f : X -> X) (l : list X) : list X :=
  match l, i with
  | [], _ => []
  | x :: r, O => f x :: r
  | x :: r, S j => x :: on_entry j f r
  end.

(** A list of equally likely outcomes of the draws of one call, for [n] items: exchanging the
    scores of two items in one draw gives the same outcomes with the same frequencies. *)
Definition exchangeable {A} (n : nat) (outcomes : list (list (list A))) : Prop :=
  forall i a b, (a < n)%nat -> (b < n)%nat -> Permutation (map (on_entry i (exchange a b)) outcomes) outcomes.

(** The ids of the items a user (internal id) has not interacted with. *)
Definition new_to {A} (st : rec_state A) (u : Z) : list Z :=
  flat_map (fun j => match g_of (m_items (rs_mappings st)) j with Some x => [x] | None => [] end)
    (filter (fun j => negb (existsb (fun p => (fst p =? u)%Z && (snd p =? j)%Z) (rs_history st))) (zrange (rs_n_items st))).

(** The chance to hit item [t] of user [uid] with [k] different items the user has not seen. *)
Definition chance {A} (st : rec_state A) (k : nat) (uid t : Z) : Q :=
  match f_of (m_users (rs_mappings st)) uid with
  | Some u => if in_dec Z.eq_dec t (new_to st u) then inject_Z (Z.of_nat k) / inject_Z (Z.of_nat (length (new_to st u))) else 0
  | None => 0
  end.
Definition mean (l : list Q) : Q := Qsum l / inject_Z (Z.of_nat (length l)).
