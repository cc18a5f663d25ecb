(** Model of source/models/svd.py (train, scores) and source/models/psi.py (update) with the
    factor matrices: the bookkeeping of Psi_model together with the numerical routines of
    LinAlg_model.  Row counts are read off the factors. *)
From Coq Require Import ZArith List Bool Lia.
From Verif Require Import Prelude DataPrep_model Psi_model Tensor_model Matrix_model Attention_model LinAlg_model.
Import ListNotations.
Open Scope nat_scope.

Section Num.
  Context {A : Type} (zero one : A) (add mul sub : A -> A -> A).
  (** [of_rel z]: a relevance as a float64 (dtype of coo_matrix). *)
  Variable of_rel : Z -> A.
  (** External routines, see LinAlg_model; [svds x k]: scipy's svds. *)
  Variable qr : mat A -> res (mat A * mat A).
  Variable svd : mat A -> res (mat A * list A * mat A).
  Variable rsvd : mat A -> nat -> res (mat A * list A * mat A).
  Variable exceeds_eps : A -> bool.
  Variable argsort : list A -> list nat.
  Variable normal : nat -> nat -> mat A.
  Variable svds : mat A -> nat -> res (mat A * list A * mat A).

  (** source/matrix_operations.py:76-84 [get_mapped_matrix]: duplicates are summed by
      tocsr, tocsc and .A alike; sparse and dense matrices are not distinguished. *)
  Definition da_array (da : Psi_model.coo) : mat A :=
    build (Z.to_nat (da_rows da)) (Z.to_nat (da_cols da)) (fun i j =>
      fold_right add zero (map (fun e => of_rel (snd e))
        (filter (fun e => (fst (fst e) =? Z.of_nat i)%Z && (snd (fst e) =? Z.of_nat j)%Z) (da_entries da)))).

  (** [self.u, self.s, self.vt]. *)
  Definition triple : Type := mat A * middle A * mat A.

  (** source/models/psi.py:139-171 [_updater] (with 48-50 and 105-137). *)
  Definition num_updater (cfg : psi_cfg) (md : mode) (da : mat A) (f : triple) : res triple :=
    let '(u, s, vt) := f in
    match md with
    | MNewUsers =>
      match cf_init cfg with
      | INone =>
        do '(u', s', vt') <- update_svd_new_vectors zero one add mul sub qr rsvd exceeds_eps
                               (transpose zero vt) s (transpose zero u) da;
        Ok (transpose zero vt', SVec s', transpose zero u')
      | IZero => psi_add_zero zero EUsers (mc da) u s vt
      | IRandom => psi_add_random zero add mul qr normal EUsers (mc da) u s vt
      end
    | MNewItems =>
      match cf_init cfg with
      | INone =>
        do '(u', s', vt') <- update_svd_new_vectors zero one add mul sub qr rsvd exceeds_eps u s vt da;
        Ok (u', SVec s', vt')
      | IZero => psi_add_zero zero EItems (mc da) u s vt
      | IRandom => psi_add_random zero add mul qr normal EItems (mc da) u s vt
      end
    | MOld =>
      do '(u', s', vt') <- psi_step zero add mul sub qr u s vt da;
      Ok (u', SMat s', vt')
    | MNew =>
      if cf_integrator cfg then
        do '(u', s', vt') <- psi_add_zero zero EUsers (mr da) u s vt;
        psi_add_zero zero EItems (mc da) u' s' vt'
      else
        do '(u', s', vt') <- update_svd_new_submatrix zero add mul svd rsvd argsort u s vt da;
        Ok (u', SVec s', vt')
    end.

  (** The object: attributes of Psi_model and the factors. *)
  Record num_state := mkNum { nm_book : psi_state; nm_f : triple }.

  (** source/models/psi.py:173-176 [update_factors_by_mode]. *)
  Definition num_by_mode (cfg : psi_cfg) (x : num_state) (data : list row) (md : mode) : res num_state :=
    match data with
    | [] => Ok x
    | _ =>
      let st := nm_book x in
      do '(ms, da) <- process_data st data md;
      do '(u, s, vt) <- num_updater cfg md (da_array da) (nm_f x);
      Ok (mkNum (mkPsi ms (Z.of_nat (mr u)) (Z.of_nat (mc vt)) (ps_history st)
                   (ps_log st ++ [mkStep md (ps_n_users st) (ps_n_items st) data da]))
                (u, s, vt))
    end.

  (** Loop body of source/models/psi.py:188-190. *)
  Definition num_loop_step (cfg : psi_cfg) (acc : res (num_state * list row)) (md : mode)
    : res (num_state * list row) :=
    do '(x, left_data) <- acc;
    let mask := divide_mask left_data (ps_maps (nm_book x)) md in
    do x' <- num_by_mode cfg x (select mask left_data) md;
    Ok (x', select (map negb mask) left_data).

  (** source/models/psi.py:178-218 [PSI.update]; [s] is stored as a matrix at the end. *)
  Definition num_update (cfg : psi_cfg) (x : num_state) (data : list row) : res num_state :=
    do x1 <-
      match cf_init cfg, cf_integrator cfg with
      | INone, false =>
        do '(y, _) <- fold_left (num_loop_step cfg) [MNew; MNewUsers; MNewItems; MOld] (Ok (x, data));
        Ok y
      | INone, true => Err RuntimeError
      | _, false =>
        do '(y, data_integrator) <- num_loop_step cfg (Ok (x, data)) MNew;
        do '(y, _) <- fold_left (num_loop_step cfg) [MNewUsers; MNewItems] (Ok (y, data_integrator));
        num_by_mode cfg y data_integrator MOld
      | _, true =>
        do '(y, _) <- fold_left (num_loop_step cfg) [MNew; MNewUsers; MNewItems] (Ok (x, data));
        num_by_mode cfg y data MOld
      end;
    do b <- update_history (nm_book x1) data;
    let '(u, s, vt) := nm_f x1 in
    Ok (mkNum b (u, SMat (as_matrix zero s), vt)).

  (** A stream of updates. *)
  Definition num_stream (cfg : psi_cfg) (x : num_state) (chunks : list (list row)) : res num_state :=
    fold_left (fun acc c => do y <- acc; num_update cfg y c) chunks (Ok x).

  (** source/models/svd.py:35-47 [SVD.train] with the csr branch of svd_step
      (source/random_svd.py:88-92): svds, then the triples in reverse order. *)
  Definition num_train (rank : Z) (data : list row) : res num_state :=
    do st <- svd_train rank data;
    do '(df, _) <- get_df_with_updated_indices data;
    let da := Psi_model.mkCoo (ps_n_users st) (ps_n_items st) (map (fun r => (r_user r, r_item r, r_rel r)) df) in
    do '(u, s, vt) <- svds (da_array da) (Z.to_nat rank);
    let u' := build (mr u) (mc u) (fun i j => mget zero u i (mc u - 1 - j)) in
    let vt' := build (mr vt) (mc vt) (fun i j => mget zero vt (mr vt - 1 - i) j) in
    Ok (mkNum st (u', SVec (rev s), vt')).

  (** source/models/svd.py:75-76 [_recommend_user] with [item_factors = s @ vt]
      (svd.py:47, psi.py:218): the scores of all items for the user at a row index. *)
  Definition num_scores (x : num_state) (i : nat) : res (list A) :=
    let '(u, s, vt) := nm_f x in
    do itf <- dot zero add mul (as_matrix zero s) vt;
    if (i <? mr u) && (mr itf =? mc u)
    then Ok (map (fun j => sum_upto zero add (mr itf) (fun k => mul (mget zero itf k j) (mget zero u i k))) (seq 0 (mc itf)))
    else Err (if i <? mr u then ValueError else IndexError).
End Num.
