(** TDRec as used by the dynamic experiment, following source/experiments/prepare_model.py:39-49. *)
From Coq Require Import ZArith List Bool.
From Verif Require Import Prelude DataPrep_model History_model Tensor_model Matrix_model LinAlg_model Tucker_model Hooi_model Nti_model Dynamic_model Seqx_model.
Import ListNotations.

Section Tdx.
  Context {A N : Type} (zero : A) (add mul : A -> A -> A).
  Variable of_val : Z -> A.
  Variables (L : nat) (rank : coord) (a ainv : mat A).
  Variables (qr : mat A -> res (mat A * mat A)) (rand : nat -> nat -> nat -> mat A).
  Variable rsvd : nat -> mat A -> nat -> res (mat A * list A * mat A).
  Variables (tnorm : ten A -> N) (norm0 : N) (grew : N -> N -> bool) (n_iter : nat) (force : bool).
  Variable argpart : nat -> list A -> nat -> list nat.
  Variable k : nat.

  (** The update function is [train] with the concatenated table (prepare_model.py:44-45); the
      object keeps its [seq_history] (source/models/tdrec.py:200-204).  A chunk has no position
      column (KeyError; not used). *)
  Definition td_api : api (@nti_state A) (list prow) A :=
    let train := seq_train zero add mul of_val L rank a ainv qr rand rsvd tnorm norm0 grew n_iter force in
    mkApi _ _ _ train
      (fun x d => match d with inl _ => Err KeyError | inr d => train x d end)
      nt_maps (nti_recommend zero add mul argpart k) (fun x => n_rows x 1)
      (fun x => Ok (factor (nt_fs x) 0)) (fun x => Ok (factor (nt_fs x) 1)).
End Tdx.
