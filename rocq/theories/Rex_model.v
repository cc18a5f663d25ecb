(** TDRecRe as used by the dynamic experiment, following source/experiments/prepare_model.py:51-61. *)
From Coq Require Import ZArith List Bool.
From Verif Require Import Prelude DataPrep_model History_model Attention_model Tensor_model Matrix_model LinAlg_model Tucker_model Hooi_model Retrain_model Nti_model Dynamic_model Seqx_model.
Import ListNotations.

Section Rex.
  Context {A N : Type} (zero : A) (add mul : A -> A -> A).
  Variable of_val : Z -> A.
  Variables (L : nat) (rank : coord) (a ainv : mat A).
  Variables (qr : mat A -> res (mat A * mat A)) (rand : nat -> nat -> nat -> mat A).
  Variable rsvd : nat -> mat A -> nat -> res (mat A * list A * mat A).
  Variables (tnorm : ten A -> N) (norm0 : N) (grew : N -> N -> bool) (n_iter : nat) (force : bool).
  Variable argpart : nat -> list A -> nat -> list nat.
  Variable k : nat.

  (** source/models/tdrec_reinit.py:100-169 [train] with the factors and mappings the object has
      (source/experiments/dynamical_experiment.py:165-168; source/models/tdrec.py:221-222
      [get_factors]). *)
  Definition re_train (x : @nti_state A) (d : list prow) : res nti_state :=
    do td <- tdrecre_prepare d (nt_seq x) L (Some (nt_maps x));
    let '(s0, s1, s2) := td_shape td in
    let inds := map (fun c : triple => (Z.to_nat (t_user c), Z.to_nat (t_item c), Z.to_nat (t_pos c))) (td_inds td) in
    do '(fs, core, _) <- ga_satf zero add mul qr rand rsvd tnorm norm0 grew inds (map of_val (td_vals td))
                           (Z.to_nat s0, Z.to_nat s1, Z.to_nat s2) rank a n_iter None (Some (nt_fs x)) force tt;
    do core' <- match core with Some c => Ok c | None => Err UnboundLocalError end;
    do '(aw, last) <- position_embeddings zero add mul a ainv (factor fs 2);
    Ok (mkNti (td_mappings td) (td_history td) (td_seq td) fs core' aw last).

  (** The first training has neither factors nor mappings (dynamical_experiment.py:88;
      tdrec_reinit.py:134-139 is tdrec.py:185-189); the update function is [train] with the
      concatenated table (prepare_model.py:56-58).  A chunk has no position column (KeyError;
      not used). *)
  Definition re_api : api (@nti_state A) (list prow) A :=
    mkApi _ _ _ (seq_train zero add mul of_val L rank a ainv qr rand rsvd tnorm norm0 grew n_iter force)
      (fun x d => match d with inl _ => Err KeyError | inr d => re_train x d end)
      nt_maps (nti_recommend zero add mul argpart k) (fun x => n_rows x 1)
      (fun x => Ok (factor (nt_fs x) 0)) (fun x => Ok (factor (nt_fs x) 1)).
End Rex.
