(** TIRec and TIRecA as used by the dynamic experiment, following
    source/experiments/prepare_model.py:63-85. *)
From Coq Require Import ZArith List Bool.
From Verif Require Import Prelude DataPrep_model History_model Recommend_model Psi_model Tirec_model Tensor_model Matrix_model Attention_model LinAlg_model Tucker_model Hooi_model Nti_model Dynamic_model.
Import ListNotations.
Open Scope Z_scope.

Section Seqx.
  Context {A N : Type} (zero one : A) (add mul sub : A -> A -> A).
  Variable of_val : Z -> A.
  Variables exceeds_eps is_one : A -> bool.
  Variable cfg : nti_cfg.
  Variables (L : nat) (rank : coord) (a ainv : mat A) (att : option (mat A)) (sort_bool : bool).
  (** Routines of training (see [nti_train]). *)
  Variables (qr : mat A -> res (mat A * mat A)) (rand : nat -> nat -> nat -> mat A).
  Variable rsvd : nat -> mat A -> nat -> res (mat A * list A * mat A).
  Variables (tnorm : ten A -> N) (norm0 : N) (grew : N -> N -> bool) (n_iter : nat) (force : bool).
  (** Routines of an update of an object; every update lengthens the history, so they may
      differ from update to update. *)
  Variable rt : @nti_state A -> mode -> routines A.
  Variable argpart : nat -> list A -> nat -> list nat.
  (** config['topk']. *)
  Variable k : nat.

  (** What [recommend] reads of the object (source/models/tdrec.py:236-264, 290-309). *)
  Definition nti_rec (x : @nti_state A) : rec_state A :=
    @mkRec A (nt_maps x) (n_rows x 0) (n_rows x 1) (nt_history x) (nti_scores zero add mul x).

  (** source/models/tdrec.py:266-309 [recommend] with filter_viewed=True. *)
  Definition nti_recommend (x : @nti_state A) (users : list Z) (internal : bool) : res (list (list Z)) :=
    Recommend_model.recommend argpart (nti_rec x) users k true internal.

  (** source/models/tdrec.py:166-219 [train] with the [seq_history] the object has;
      tirec.py:281-314 and tirec_accelerated.py:319-385 [update]; tdrec.py:224-234 [get_u],
      [get_v], [get_n_items].  Updates get chunks (prepare_model.py:69, 81); a concatenated
      table would lose its position column. *)
  Definition seq_train (x : @nti_state A) (d : list prow) : res nti_state :=
    nti_train zero add mul of_val qr rand rsvd tnorm norm0 grew L rank a ainv n_iter force d (nt_seq x).
  Definition seq_update (x : @nti_state A) (c : list row) : res nti_state :=
    nti_update zero one add mul sub of_val exceeds_eps is_one cfg L a ainv att (rt x) x c sort_bool.
  Definition seq_api : api (@nti_state A) (list prow) A :=
    mkApi _ _ _ seq_train
      (fun x c => seq_update x (match c with inl c => c | inr d => map p_row d end))
      nt_maps nti_recommend (fun x => n_rows x 1)
      (fun x => Ok (factor (nt_fs x) 0)) (fun x => Ok (factor (nt_fs x) 1)).
End Seqx.
