(** Model of RandomRec, source/models/random_rec.py: [recommend] with a fresh draw for every
    requested user. *)
From Coq Require Import ZArith List Bool.
From Verif Require Import Prelude DataPrep_model Recommend_model.
Import ListNotations.
Open Scope Z_scope.

Section RandomRec.
  Context {A : Type}.
  Variable argpart : nat -> list A -> nat -> list nat.

  (** source/models/random_rec.py:46-47: the scores of a user are the vector just drawn,
      whoever the user is. *)
  Definition drawn (st : rec_state A) (draw : list A) : rec_state A :=
    mkRec (rs_mappings st) (rs_n_users st) (rs_n_items st) (rs_history st) (fun _ => Ok draw).

  (** source/models/random_rec.py:61-73; [draws] are the values of the successive calls of
      [self.rs.randn]. *)
  Fixpoint random_loop (st : rec_state A) (filter_viewed internal : bool) (k : nat) (i : nat)
           (us : list Z) (draws : list (list A)) : res (list (list Z)) :=
    match us, draws with
    | [], _ => Ok []
    | _ :: _, [] => Err OutOfFuel (* not reached: the generator always has a next value *)
    | u :: r, draw :: draws' =>
      do row <- recommend_user argpart (drawn st draw) filter_viewed internal k i u;
      do rows <- random_loop st filter_viewed internal k (S i) r draws';
      Ok (row :: rows)
    end.

  (** source/models/random_rec.py:49-74 [recommend]. *)
  Definition random_recommend (st : rec_state A) (draws : list (list A)) (users : list Z) (k : nat)
             (filter_viewed internal : bool) : res (list (list Z)) :=
    do mapped <- mapM (fun uid => getitem (old2new (m_users (rs_mappings st))) uid) users;
    let k := Nat.min k (rs_n_items st) in
    if filter_viewed && negb (history_fits (rs_history st) (rs_n_users st) (rs_n_items st))
    then Err ValueError
    else random_loop st filter_viewed internal k 0 mapped draws.
End RandomRec.
