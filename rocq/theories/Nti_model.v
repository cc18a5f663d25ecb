(** Model of source/models/tirec.py and source/models/tirec_accelerated.py (update) and of
    the training of source/models/tdrec.py with the factor matrices: the data handling of
    Tirec_model together with the numerical routines of Tucker_model, Upd_model and
    Hooi_model.  Row counts are read off the factors. *)
From Coq Require Import ZArith List Bool Lia.
From Verif Require Import Prelude DataPrep_model History_model Recommend_model Psi_model Tirec_model
  Tensor_model Matrix_model Attention_model LinAlg_model Tucker_model Hooi_model Upd_model.
Import ListNotations.
Open Scope nat_scope.

(** External routines of one call of [update_factors_by_mode]: numpy's QR, scipy's svds on a
    linear operator, the two calls of random_svd in update_tucker_new_vectors, random initial
    factors, random_svd and full SVD in update_tucker_new_matrix, normal random numbers. *)
Record routines (A : Type) : Type := mkRoutines {
  rt_qr : mat A -> res (mat A * mat A);
  rt_svds : linop A -> nat -> res (mat A * list A * mat A);
  rt_rsvd1 : mat A -> nat -> res (mat A * list A * mat A);
  rt_rsvd2 : mat A -> nat -> res (mat A * list A * mat A);
  rt_rand2 : nat -> nat -> nat -> mat A;
  rt_rand3 : nat -> nat -> nat -> mat A;
  rt_rsvd3 : nat -> mat A -> nat -> res (mat A * list A * mat A);
  rt_rsvd4 : nat -> mat A -> nat -> res (mat A * list A * mat A);
  rt_full : mat A -> res (mat A * list A * mat A);
  rt_normal : nat -> nat -> mat A }.
Arguments rt_qr {A}. Arguments rt_svds {A}. Arguments rt_rsvd1 {A}. Arguments rt_rsvd2 {A}.
Arguments rt_rand2 {A}. Arguments rt_rand3 {A}. Arguments rt_rsvd3 {A}. Arguments rt_rsvd4 {A}.
Arguments rt_full {A}. Arguments rt_normal {A}. 

(** Options of a model object: class and [_nu_ni_process_integrator]; a non-zero
    [_init_new_embeddings]; [explicit_calc]. *)
Record nti_cfg := mkNtiCfg { nc_variant : variant; nc_random : bool; nc_explicit : bool }.

Section Nti.
  Context {A : Type} (zero one : A) (add mul sub : A -> A -> A).
  (** [of_val z]: an entry as a float64. *)
  Variable of_val : Z -> A.
  Variables exceeds_eps is_one : A -> bool.

  (** The attributes. *)
  Record nti_state := mkNti {
    nt_maps : mappings;
    nt_history : list (Z * Z);
    nt_seq : seq_history;
    nt_fs : @factors A;
    nt_core : ten A;
    nt_aw : mat A;
    nt_last : list A }.
  Definition set_factors (x : nti_state) (fs : @factors A) (core : ten A) : nti_state :=
    mkNti (nt_maps x) (nt_history x) (nt_seq x) fs core (nt_aw x) (nt_last x).
  Definition n_rows (x : nti_state) (mode : nat) : nat := mr (factor (nt_fs x) mode).

  (** [data[:, :3]] and [data[:, 3]].  Simplification: a negative coordinate raises. *)
  Definition nat_coord (e : entry) : res coord :=
    if ((0 <=? e_user e) && (0 <=? e_item e) && (0 <=? e_pos e))%Z
    then Ok (Z.to_nat (e_user e), Z.to_nat (e_item e), Z.to_nat (e_pos e)) else Err OutOfBounds.
  Definition nat_coords (es : list entry) : res (list coord) := mapM nat_coord es.
  Definition values (es : list entry) : list A := map (fun e => of_val (snd e)) es.

  (** [coo_matrix.tocsr()] as an array: duplicates are summed. *)
  Definition coo_array (x : @Tensor_model.coo A) : mat A :=
    build (coo_r x) (coo_c x) (fun i j =>
      fold_right add zero (map snd (filter (fun e => (fst (fst e) =? i) && (snd (fst e) =? j)) (coo_entries x)))).

  (** source/models/tirec.py:189-211 (tirec_accelerated.py:195-217): the new vectors of a
      mode.  [att]: the attention matrix if [att_f] is set and [att_light_mode] is off. *)
  Definition new_vectors (att : option (mat A)) (es : list entry) (shape : coord) (mode : nat) : res (mat A) :=
    do inds <- nat_coords es;
    match att with
    | None =>
      do x <- unfold_sparse inds (values es) shape (Z.of_nat mode);
      Ok (coo_array x)
    | Some a =>
      do t <- tensordot zero add mul inds (values es) shape (Attention_model.transpose zero a) 2;
      unfold_dense zero t (Z.of_nat mode)
    end.

  (** source/models/tirec.py:227-234 and tirec_accelerated.py:269-272. *)
  Definition add_vectors (cfg : nti_cfg) (rt : routines A) (em : emb_mode) (da : mat A) (fs : @factors A) (core : ten A)
    : res (@factors A * ten A) :=
    match nc_variant cfg with
    | VTIRec =>
      update_tucker_new_vectors zero one add mul sub (rt_qr rt) (rt_svds rt) (rt_rsvd1 rt) (rt_rsvd2 rt)
        exceeds_eps (nc_explicit cfg) fs core da (match em with EUsers => 0 | EItems => 1 end)
    | _ =>
      let '(u, v, w) := fs in
      if nc_random cfg then
        do '(u', v', core') <- tucker_add_random zero add mul (rt_qr rt) (rt_normal rt) em (mr da) u v core;
        Ok ((u', v', w), core')
      else
        do '(u', v') <- tucker_add_zero zero em (mr da) u v;
        Ok ((u', v', w), core)
    end.

  (** source/models/tirec.py:185-279 [process_data_for_calculations], [_updater] and
      [update_factors_by_mode] (tirec_accelerated.py:191-226, 264-317). *)
  Definition nti_by_mode (cfg : nti_cfg) (L : nat) (att : option (mat A)) (rt : routines A)
             (x : nti_state) (data : list entry) (md : mode) : res nti_state :=
    match data with
    | [] => Ok x
    | _ =>
      let n := length (np_unique (map e_user data)) in
      let m := length (np_unique (map e_item data)) in
      let fs := nt_fs x in
      match md with
      | MNewUsers =>
        do loc <- map_to_local_u data;
        do da <- new_vectors att loc (n, n_rows x 1, L) 0;
        do '(fs', core') <- add_vectors cfg rt EUsers da fs (nt_core x);
        Ok (set_factors x fs' core')
      | MNewItems =>
        do loc <- map_to_local_i data;
        do da <- new_vectors att loc (n_rows x 0, m, L) 1;
        do '(fs', core') <- add_vectors cfg rt EItems da fs (nt_core x);
        Ok (set_factors x fs' core')
      | MOld =>
        do inds <- nat_coords data;
        do '(u, v, w, core') <- tucker_integrator zero add mul sub (rt_qr rt) is_one
                                  (factor fs 0) (factor fs 1) (factor fs 2) (nt_core x) inds (values data)
                                  (n_rows x 0, n_rows x 1, L) att;
        Ok (set_factors x (u, v, w) core')
      | MNew =>
        do loc0 <- map_to_local_u data;
        do loc <- map_to_local_i loc0;
        do inds <- nat_coords loc;
        do '(fs', core') <- update_tucker_new_matrix zero one add mul (rt_qr rt) (rt_rand2 rt) (rt_rand3 rt)
                              (rt_rsvd3 rt) (rt_rsvd4 rt) (rt_full rt) fs (nt_core x) inds (values loc) (n, m, L) att;
        Ok (set_factors x fs' core')
      end
    end.

  (** Loop body of source/models/tirec.py:304-309 (tirec_accelerated.py:343-348). *)
  Definition nti_loop_step (cfg : nti_cfg) (L : nat) (att : option (mat A)) (rt : mode -> routines A)
    (acc : res (nti_state * list entry * list Z * list Z)) (md : mode)
    : res (nti_state * list entry * list Z * list Z) :=
    do '(x, left_data, nu, ni) <- acc;
    let '(prepared, mask, nu', ni') := divide_inds left_data md nu ni in
    do x' <- nti_by_mode cfg L att (rt md) x prepared md;
    Ok (x', select (map negb mask) left_data, nu', ni').

  (** source/models/tirec_accelerated.py:365-375: rows for all new users, then for all new
      items. *)
  Definition add_all (cfg : nti_cfg) (rt : mode -> routines A) (x : nti_state) (n m : nat) : res nti_state :=
    do '(fs1, core1) <- add_vectors cfg (rt MNewUsers) EUsers (zeros2 zero n 0) (nt_fs x) (nt_core x);
    do '(fs2, core2) <- add_vectors cfg (rt MNewItems) EItems (zeros2 zero m 0) fs1 core1;
    Ok (set_factors x fs2 core2).

  (** source/models/tirec.py:281-314 [TIRec.update], tirec_accelerated.py:319-385
      [TIRecA.update]; [a], [ainv]: [attention_mtx] and [attention_mtx_inv]. *)
  Definition nti_update (cfg : nti_cfg) (L : nat) (a ainv : mat A) (att : option (mat A)) (rt : mode -> routines A)
             (x : nti_state) (data : list row) (sort_bool : bool) : res nti_state :=
    do '(ms, chunk, nu, ni) <- preprocess_raw_input_data L (nt_maps x) data sort_bool;
    let '(seq', delta) := get_train_tensor L (nt_seq x) (map triple_of chunk) in
    match delta with
    | [] => Err ValueError
    | _ =>
      let x0 := mkNti ms (nt_history x) seq' (nt_fs x) (nt_core x) (nt_aw x) (nt_last x) in
      do x1 <-
        match nc_variant cfg with
        | VTIRec =>
          do '(y, _, _, _) <- fold_left (nti_loop_step cfg L att rt) [MNew; MNewUsers; MNewItems; MOld]
                                (Ok (x0, delta, nu, ni));
          Ok y
        | VTIRecA =>
          do '(y, _, nu', ni') <- fold_left (nti_loop_step cfg L att rt) [MNew; MNewUsers; MNewItems]
                                    (Ok (x0, delta, nu, ni));
          let '(_, mask, _, _) := divide_inds delta MNew nu' ni' in
          nti_by_mode cfg L att (rt MOld) y (select (map negb mask) delta) MOld
        | VTIRecAInt =>
          do y <- add_all cfg rt x0 (length nu) (length ni);
          nti_by_mode cfg L att (rt MOld) y delta MOld
        end;
      do '(aw, last) <- position_embeddings zero add mul a ainv (factor (nt_fs x1) 2);
      Ok (mkNti (nt_maps x1)
                (nt_history x1 ++ map (fun p => (r_user (p_row p), r_item (p_row p))) chunk)
                (nt_seq x1) (nt_fs x1) (nt_core x1) aw last)
    end.

  (** A stream of updates; the routines may differ from update to update. *)
  Fixpoint nti_stream (cfg : nti_cfg) (L : nat) (a ainv : mat A) (att : option (mat A))
           (rt : nat -> mode -> routines A) (sort_bool : bool) (x : nti_state) (chunks : list (list row)) : res nti_state :=
    match chunks with
    | [] => Ok x
    | c :: l =>
      do y <- nti_update cfg L a ainv att (rt 0) x c sort_bool;
      nti_stream cfg L a ainv att (fun t => rt (S t)) sort_bool y l
    end.

  (** source/models/tdrec.py:166-219 [TDRec.train] without a callback; [rand], [rsvd]: the
      random numbers and random_svd inside ga_satf, [norm], [norm0], [grew]: its stopping
      rule.  [core] is unbound when [n_iter] is 0. *)
  Definition nti_train {N : Type} (qr : mat A -> res (mat A * mat A)) (rand : nat -> nat -> nat -> mat A)
             (rsvd : nat -> mat A -> nat -> res (mat A * list A * mat A)) (norm : ten A -> N) (norm0 : N) (grew : N -> N -> bool)
             (L : nat) (rank : coord) (a ainv : mat A) (n_iter : nat) (force_n_iter : bool)
             (data : list prow) (seq : seq_history) : res nti_state :=
    do td <- tdrec_prepare data seq L;
    let '(s0, s1, s2) := td_shape td in
    let inds := map (fun c : triple => (Z.to_nat (t_user c), Z.to_nat (t_item c), Z.to_nat (t_pos c))) (td_inds td) in
    do '(fs, core, _) <- ga_satf zero add mul qr rand rsvd norm norm0 grew inds (map of_val (td_vals td))
                           (Z.to_nat s0, Z.to_nat s1, Z.to_nat s2) rank a n_iter None None force_n_iter tt;
    do core' <- match core with Some c => Ok c | None => Err UnboundLocalError end;
    do '(aw, last) <- position_embeddings zero add mul a ainv (factor fs 2);
    Ok (mkNti (td_mappings td) (td_history td) (td_seq td) fs core' aw last).

  (** source/models/tdrec.py:252-264 [_recommend_user]. *)
  Definition nti_scores (x : nti_state) (u : Z) : res (list A) :=
    user_scores zero add mul (nt_seq x) (factor (nt_fs x) 1) (factor (nt_fs x) 2) (nt_aw x) (nt_last x) u.
End Nti.
