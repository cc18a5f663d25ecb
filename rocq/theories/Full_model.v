(** Models of source/models/svd.py and source/models/psi.py as used by the dynamic
    experiment, following source/experiments/prepare_model.py:15-37. *)
From Coq Require Import ZArith List Bool.
From Verif Require Import Prelude DataPrep_model Recommend_model Psi_model Tensor_model Matrix_model Attention_model LinAlg_model Num_model Dynamic_model.
Import ListNotations.
Open Scope Z_scope.

Section Full.
  Context {A : Type} (zero one : A) (add mul sub : A -> A -> A).
  Variable of_rel : Z -> A.
  Variable qr : mat A -> res (mat A * mat A).
  Variable svd : mat A -> res (mat A * list A * mat A).
  Variable rsvd : mat A -> nat -> res (mat A * list A * mat A).
  Variable exceeds_eps : A -> bool.
  Variable argsort : list A -> list nat.
  Variable normal : nat -> nat -> mat A.
  Variable svds : mat A -> nat -> res (mat A * list A * mat A).
  Variable argpart : nat -> list A -> nat -> list nat.
  (** config['topk']; the rank found by the search. *)
  Variable k : nat.
  Variable rank : Z.

  (** What [recommend] reads of the object (source/models/svd.py:58-72, 74-75): mappings,
      the numbers of rows of [u] and columns of [vt], history, scores. *)
  Definition num_rec (x : num_state (A := A)) : rec_state A :=
    let '(u, _, vt) := nm_f x in
    @mkRec A (ps_maps (nm_book x)) (mr u) (mc vt) (ps_history (nm_book x)) (fun i => num_scores zero add mul x (Z.to_nat i)).

  (** source/models/svd.py:49-56, 77-103 [recommend] with filter_viewed=True, get_u, get_v. *)
  Definition svd_recommend (x : num_state (A := A)) (users : list Z) (internal : bool) : res (list (list Z)) :=
    Recommend_model.recommend argpart (num_rec x) users k true internal.
  Definition svd_get_u (x : num_state (A := A)) : res (mat A) := Ok (fst (fst (nm_f x))).
  Definition svd_get_v (x : num_state (A := A)) : res (mat A) := Ok (transpose zero (snd (nm_f x))).

  (** source/experiments/prepare_model.py:27-37 [_prepare_psirec_model]: updates with chunks. *)
  Definition psi_api (cfg : psi_cfg) : api num_state (list row) A :=
    mkApi _ _ _
      (fun _ d => num_train zero add of_rel svds rank d)
      (fun x c => num_update zero one add mul sub of_rel qr svd rsvd exceeds_eps argsort normal cfg x
                    (match c with inl c => c | inr d => d end))
      (fun x => ps_maps (nm_book x)) svd_recommend (fun x => mc (snd (nm_f x))) svd_get_u svd_get_v.

  (** source/experiments/prepare_model.py:15-25 [_prepare_svd_model]: the update function is
      train, with the concatenated table. *)
  Definition svd_api : api num_state (list row) A :=
    mkApi _ _ _
      (fun _ d => num_train zero add of_rel svds rank d)
      (fun _ c => num_train zero add of_rel svds rank (match c with inl c => c | inr d => d end))
      (fun x => ps_maps (nm_book x)) svd_recommend (fun x => mc (snd (nm_f x))) svd_get_u svd_get_v.
End Full.
