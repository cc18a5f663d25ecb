(** C103: proofs. *)
From Coq Require Import ZArith QArith List Bool Lia.
From Verif Require Import Prelude Prelude_proofs DataPrep_model DataPrep_proofs History_model History_proofs Recommend_model Eval_model
  Psi_model Tirec_model Tensor_model Matrix_model Attention_model LinAlg_model Num_model Tucker_model Hooi_model Nti_model
  Dynamic_model Full_model Seqx_model Tdx_model Retrain_model Retrain_proofs Tables_model Stream_model Pipe_model
  Rename_spec Rename_main Rename_exp Columns_spec.
Import ListNotations.
Open Scope Z_scope.

(** ** Changes that keep user and item *)
Section Keep.
  Variable p : row -> row.
  Hypothesis pu : forall r, r_user (p r) = r_user r.
  Hypothesis pi : forall r, r_item (p r) = r_item r.

  Lemma users_p l : map r_user (map p l) = map r_user l.
  Proof. rewrite map_map. apply map_ext, pu. Qed.
  Lemma items_p l : map r_item (map p l) = map r_item l.
  Proof. rewrite map_map. apply map_ext, pi. Qed.

  Lemma targets_p df ms : get_users_to_recommend_test_items (map p df) ms = get_users_to_recommend_test_items df ms.
  Proof.
    unfold get_users_to_recommend_test_items, get_inds_vals. cbn [fst snd].
    assert (K : get_known_ui_df_mask (map p df) ms = get_known_ui_df_mask df ms).
    { unfold get_known_ui_df_mask. rewrite map_map. apply map_ext. intros r. rewrite pu, pi. reflexivity. }
    rewrite K, (select_R p (get_known_ui_df_mask df ms) df). set (s := select _ df).
    assert (E : map (fun r => (r_user r, r_item r)) (map p s) = map (fun r => (r_user r, r_item r)) s).
    { rewrite map_map. apply map_ext. intros r. rewrite pu, pi. reflexivity. }
    rewrite E. reflexivity.
  Qed.

  Definition pp (x : prow) : prow := (p (fst x), snd x).

  Lemma rows_pp l : map p_row (map pp l) = map p (map p_row l).
  Proof. rewrite !map_map. reflexivity. Qed.
  Lemma pos_pp l : map p_pos (map pp l) = map p_pos l.
  Proof. rewrite !map_map. reflexivity. Qed.

  Lemma order_pp x L : add_order_cropped (map p x) L = mapR (map pp) (add_order_cropped x L).
  Proof.
    unfold add_order_cropped. rewrite map_length, !combine_l.
    destruct (_ <=? L)%nat; [reflexivity|]. destruct L; reflexivity.
  Qed.

  Lemma crop_pp (ord : forall r r', r_user r = r_user r' -> (r_ts (p r) <= r_ts (p r') <-> r_ts r <= r_ts r')) df L sb :
    get_df_with_cropped_pos_column (map p df) L sb = mapR (map pp) (get_df_with_cropped_pos_column df L sb).
  Proof.
    unfold get_df_with_cropped_pos_column.
    assert (S : (if sb then sort_stable user_ts_leb (map p df) else map p df)
                = map p (if sb then sort_stable user_ts_leb df else df)).
    { destruct sb; [|reflexivity]. rewrite sort_stable_map. f_equal. apply sort_stable_ext. intros x y _ _.
      unfold user_ts_leb. rewrite !pu. f_equal.
      destruct (Z.eqb_spec (r_user x) (r_user y)) as [E|]; [|reflexivity].
      cbn [andb]. apply eq_true_iff_eq. rewrite !Z.leb_le. apply ord, E. }
    cbv zeta. rewrite S. generalize (if sb then sort_stable user_ts_leb df else df) as d. intros d.
    destruct d as [|r d]; [reflexivity|]. cbn [map]. change (p r :: map p d) with (map p (r :: d)).
    change (r_user (p r) :: map r_user (map p d)) with (map r_user (map p (r :: d))).
    change (r_user r :: map r_user d) with (map r_user (r :: d)).
    rewrite users_p.
    rewrite (mapM_ext _ (fun u => mapR (map pp) (add_order_cropped (filter (fun r => r_user r =? u) (r :: d)) L))).
    2:{ intros u. rewrite (filter_map_gen p _ (fun r => r_user r =? u)); [apply order_pp|].
        intros x. rewrite pu. reflexivity. }
    rewrite mapM_mapR, bind_mapR, mapR_bind. apply bind_ext. intros gs. cbn [mapR]. f_equal.
    rewrite <- concat_map. apply filter_map_gen. reflexivity.
  Qed.
End Keep.

(** ** Rows with constant columns *)
Definition e_ts : row -> row := retime (fun _ => 0).
Definition e_tr : row -> row := reweigh (fun _ => 0) (fun _ => 0).

Section Const.
  Variable c : row -> row.
  Hypothesis cu : forall r, r_user (c r) = r_user r.
  Hypothesis ci : forall r, r_item (c r) = r_item r.
  Hypothesis csu : forall r u, set_user (c r) u = c (set_user r u).
  Hypothesis csi : forall r i, set_item (c r) i = c (set_item r i).

  Lemma reindex_c df :
    get_df_with_updated_indices (map c df) = mapR (fun x => (map c (fst x), snd x)) (get_df_with_updated_indices df).
  Proof.
    unfold get_df_with_updated_indices. rewrite (users_p c cu).
    set (mu := get_cont_mapping_struct (unique (map r_user df)) 0).
    assert (E1 : mapM (fun r => do u <- getitem (old2new mu) (r_user r); Ok (set_user r u)) (map c df) =
      mapR (map c) (mapM (fun r => do u <- getitem (old2new mu) (r_user r); Ok (set_user r u)) df)).
    { rewrite mapM_map, <- mapM_mapR. apply mapM_ext. intros r. rewrite cu. destruct (getitem _ _); cbn [bind mapR]; [|reflexivity].
      rewrite csu. reflexivity. }
    cbv zeta. rewrite E1, bind_mapR, mapR_bind. apply bind_ext. intros df1. rewrite (items_p c ci).
    set (mi := get_cont_mapping_struct (unique (map r_item df1)) 0).
    assert (E2 : mapM (fun r => do u <- getitem (old2new mi) (r_item r); Ok (set_item r u)) (map c df1) =
      mapR (map c) (mapM (fun r => do u <- getitem (old2new mi) (r_item r); Ok (set_item r u)) df1)).
    { rewrite mapM_map, <- mapM_mapR. apply mapM_ext. intros r. rewrite ci. destruct (getitem _ _); cbn [bind mapR]; [|reflexivity].
      rewrite csi. reflexivity. }
    rewrite E2, bind_mapR, mapR_bind. reflexivity.
  Qed.

  Lemma map_df_columns_c df ms : map_df_columns (map c df) ms = mapR (map c) (map_df_columns df ms).
  Proof.
    unfold map_df_columns.
    assert (E1 : mapM (fun r => do u <- getitem (old2new (m_users ms)) (r_user r); Ok (set_user r u)) (map c df) =
      mapR (map c) (mapM (fun r => do u <- getitem (old2new (m_users ms)) (r_user r); Ok (set_user r u)) df)).
    { rewrite mapM_map, <- mapM_mapR. apply mapM_ext. intros r. rewrite cu. destruct (getitem _ _); cbn [bind mapR]; [|reflexivity].
      rewrite csu. reflexivity. }
    rewrite E1, bind_mapR, mapR_bind. apply bind_ext. intros df1.
    rewrite mapM_map, <- mapM_mapR. apply mapM_ext. intros r. rewrite ci. destruct (getitem _ _); cbn [bind mapR]; [|reflexivity].
    rewrite csi. reflexivity.
  Qed.
End Const.

(** ** Sequential models *)
Lemma prepare_e data seq L : tdrec_prepare (map (pp e_ts) data) seq L = tdrec_prepare data seq L.
Proof.
  unfold tdrec_prepare. rewrite rows_pp, pos_pp, (reindex_c e_ts) by reflexivity. rewrite bind_mapR.
  apply bind_ext. intros [rows ms]. cbn [fst snd]. rewrite combine_l, !map_map. reflexivity.
Qed.

Lemma prepare_t t data seq L : tdrec_prepare (map (pp (retime t)) data) seq L = tdrec_prepare data seq L.
Proof. rewrite <- prepare_e, map_map. rewrite <- (prepare_e data). reflexivity. Qed.

Definition e_chunk (x : mappings * list prow * list Z * list Z) :=
  let '(ms, chunk, nu, ni) := x in (ms, map (pp e_tr) chunk, nu, ni).

(** [preprocess_raw_input_data] after cropping. *)
Definition post (ms : mappings) (chunk : list prow) : res (mappings * list prow * list Z * list Z) :=
  let new_users := new_entities (m_users ms) (map (fun p => r_user (p_row p)) chunk) in
  let mu := update_cont_mapping_struct (m_users ms) new_users in
  let new_items := new_entities (m_items ms) (map (fun p => r_item (p_row p)) chunk) in
  let mi := update_cont_mapping_struct (m_items ms) new_items in
  do nu <- mapM (fun e => getitem (old2new mu) e) new_users;
  do ni <- mapM (fun e => getitem (old2new mi) e) new_items;
  do rows <- map_df_columns (map p_row chunk) (mkMappings mu mi);
  Ok (mkMappings mu mi, combine rows (map p_pos chunk), nu, ni).

Lemma post_e ms chunk : post ms (map (pp e_tr) chunk) = mapR e_chunk (post ms chunk).
Proof.
  unfold post. rewrite !map_map. cbn [pp p_row p_pos fst snd e_tr reweigh r_user r_item].
  do 2 (rewrite mapR_bind; apply bind_ext; intros ?).
  replace (map (fun x : prow => e_tr (fst x)) chunk) with (map e_tr (map p_row chunk)) by (rewrite map_map; reflexivity).
  rewrite (map_df_columns_c e_tr) by reflexivity. rewrite bind_mapR, mapR_bind. apply bind_ext. intros rows.
  cbn [mapR e_chunk]. rewrite combine_l. reflexivity.
Qed.

Section Nti.
  Context {A : Type} (zero one : A) (add mul sub : A -> A -> A).
  Variable of_val : Z -> A.
  Variables exceeds_eps is_one : A -> bool.
  Variable cfg : nti_cfg.
  Notation upd := (nti_update zero one add mul sub of_val exceeds_eps is_one cfg).

  (** [nti_update] after preprocessing looks at users, items and positions only. *)
  Definition rest L a ainv att rt (x : @nti_state A) (y : mappings * list prow * list Z * list Z) : res (@nti_state A) :=
    let '(ms, chunk, nu, ni) := y in
    let '(seq', delta) := get_train_tensor L (nt_seq x) (map triple_of chunk) in
    match delta with
    | [] => Err ValueError
    | _ =>
      let x0 := mkNti ms (nt_history x) seq' (nt_fs x) (nt_core x) (nt_aw x) (nt_last x) in
      do x1 <-
        match nc_variant cfg with
        | VTIRec =>
          do '(y, _, _, _) <- fold_left (nti_loop_step zero one add mul sub of_val exceeds_eps is_one cfg L att rt) [MNew; MNewUsers; MNewItems; MOld]
                                (Ok (x0, delta, nu, ni));
          Ok y
        | VTIRecA =>
          do '(y, _, nu', ni') <- fold_left (nti_loop_step zero one add mul sub of_val exceeds_eps is_one cfg L att rt) [MNew; MNewUsers; MNewItems]
                                    (Ok (x0, delta, nu, ni));
          let '(_, mask, _, _) := divide_inds delta MNew nu' ni' in
          nti_by_mode zero one add mul sub of_val exceeds_eps is_one cfg L att (rt MOld) y (select (map negb mask) delta) MOld
        | VTIRecAInt =>
          do y <- add_all zero one add mul sub exceeds_eps cfg rt x0 (length nu) (length ni);
          nti_by_mode zero one add mul sub of_val exceeds_eps is_one cfg L att (rt MOld) y delta MOld
        end;
      do '(aw, last) <- position_embeddings zero add mul a ainv (factor (nt_fs x1) 2);
      Ok (mkNti (nt_maps x1)
                (nt_history x1 ++ map (fun p => (r_user (p_row p), r_item (p_row p))) chunk)
                (nt_seq x1) (nt_fs x1) (nt_core x1) aw last)
    end.

  Lemma upd_rest L a ainv att rt x data sb :
    upd L a ainv att rt x data sb =
    do chunk <- get_df_with_cropped_pos_column data L sb; do y <- post (nt_maps x) chunk; rest L a ainv att rt x y.
  Proof.
    unfold nti_update, preprocess_raw_input_data, post. cbv zeta.
    destruct (get_df_with_cropped_pos_column data L sb) as [chunk|e]; cbn [bind]; [|reflexivity].
    destruct (mapM _ (new_entities (m_users _) _)); cbn [bind]; [|reflexivity].
    destruct (mapM _ (new_entities (m_items _) _)); cbn [bind]; [|reflexivity].
    destruct (map_df_columns _ _); cbn [bind]; reflexivity.
  Qed.

  Lemma rest_e L a ainv att rt x y : rest L a ainv att rt x (e_chunk y) = rest L a ainv att rt x y.
  Proof.
    destruct y as [[[ms chunk] nu] ni]. unfold rest, e_chunk. rewrite !map_map. reflexivity.
  Qed.

  Lemma nti_update_p t w (ord : same_order t) L a ainv att rt x data sb :
    upd L a ainv att rt x (map (reweigh t w) data) sb = upd L a ainv att rt x data sb.
  Proof.
    rewrite !upd_rest, crop_pp, bind_mapR by (try reflexivity; exact ord). apply bind_ext. intros chunk.
    assert (E : forall ch, (do y <- post (nt_maps x) ch; rest L a ainv att rt x y)
                           = (do y <- post (nt_maps x) (map (pp e_tr) ch); rest L a ainv att rt x y)).
    { intros ch. rewrite post_e, bind_mapR. apply bind_ext. intros y. rewrite rest_e. reflexivity. }
    rewrite E, (E chunk), map_map. reflexivity.
  Qed.

  Context {N : Type}.
  Variables (L : nat) (rank : coord) (a ainv : mat A).
  Variables (qr : mat A -> res (mat A * mat A)) (rand : nat -> nat -> nat -> mat A).
  Variable rsvd : nat -> mat A -> nat -> res (mat A * list A * mat A).
  Variables (tnorm : ten A -> N) (norm0 : N) (grew : N -> N -> bool) (n_iter : nat) (force : bool).

  Lemma nti_train_t t d seq :
    nti_train zero add mul of_val qr rand rsvd tnorm norm0 grew L rank a ainv n_iter force (map (pp (retime t)) d) seq =
    nti_train zero add mul of_val qr rand rsvd tnorm norm0 grew L rank a ainv n_iter force d seq.
  Proof. unfold nti_train. rewrite prepare_t. reflexivity. Qed.
End Nti.

(** ** Matrix models *)
Section Num.
  Context {A : Type} (zero one : A) (add mul sub : A -> A -> A).
  Variable of_rel : Z -> A.
  Variable qr : mat A -> res (mat A * mat A).
  Variable svd : mat A -> res (mat A * list A * mat A).
  Variable rsvd : mat A -> nat -> res (mat A * list A * mat A).
  Variable exceeds_eps : A -> bool.
  Variable argsort : list A -> list nat.
  Variable normal : nat -> nat -> mat A.
  Variable svds : mat A -> nat -> res (mat A * list A * mat A).
  Variable t : row -> Z.
  Notation "'T'" := (retime t).
  Notation P := (relog t).
  Notation NM := (@relog_num A t).

  Lemma rels_T df : map r_rel (map T df) = map r_rel df.
  Proof. rewrite map_map. reflexivity. Qed.

  Lemma process_T st data md : process_data (P st) (map T data) md = process_data st data md.
  Proof.
    unfold process_data. cbn [relog ps_maps ps_n_users ps_n_items].
    rewrite users_p, items_p, rels_T by reflexivity.
    destruct md.
    - destruct (add_new_entities (m_items (ps_maps st)) (map r_item data)) as [mi cm].
      destruct (add_new_entities (m_users (ps_maps st)) (map r_user data)) as [mu rm]. rewrite !mapM_map. reflexivity.
    - destruct (add_new_entities (m_users (ps_maps st)) (map r_user data)) as [mu rm]. rewrite !mapM_map. reflexivity.
    - destruct (add_new_entities (m_items (ps_maps st)) (map r_item data)) as [mi cm]. rewrite !mapM_map. reflexivity.
    - rewrite !mapM_map. reflexivity.
  Qed.

  Lemma divide_T df ms md : divide_mask (map T df) ms md = divide_mask df ms md.
  Proof. unfold divide_mask. rewrite map_map. reflexivity. Qed.

  Notation by_mode := (num_by_mode zero one add mul sub of_rel qr svd rsvd exceeds_eps argsort normal).
  Notation step := (num_loop_step zero one add mul sub of_rel qr svd rsvd exceeds_eps argsort normal).
  Notation upd := (num_update zero one add mul sub of_rel qr svd rsvd exceeds_eps argsort normal).

  Lemma by_mode_T cfg x data md : by_mode cfg (NM x) (map T data) md = mapR NM (by_mode cfg x data md).
  Proof.
    unfold num_by_mode. destruct data as [|r data]; [reflexivity|].
    cbn [map]. change (T r :: map T data) with (map T (r :: data)).
    cbn [relog_num nm_book nm_f]. rewrite process_T, mapR_bind. apply bind_ext. intros [ms da].
    rewrite mapR_bind. apply bind_ext. intros [[u s] vt].
    unfold mapR, relog_num, relog. cbn [nm_book nm_f ps_maps ps_n_users ps_n_items ps_history ps_log].
    rewrite map_app. reflexivity.
  Qed.

  Definition NT (p : @num_state A * list row) := (NM (fst p), map T (snd p)).

  Lemma step_T cfg acc md : step cfg (mapR NT acc) md = mapR NT (step cfg acc md).
  Proof.
    unfold num_loop_step. rewrite bind_mapR, mapR_bind. apply bind_ext. intros [x d].
    cbn [NT fst snd relog_num nm_book relog ps_maps]. rewrite divide_T, !select_R.
    change (mkNum (relog t (nm_book x)) (nm_f x)) with (NM x).
    rewrite by_mode_T, bind_mapR, mapR_bind. reflexivity.
  Qed.

  Lemma steps_T cfg mds acc : fold_left (step cfg) mds (mapR NT acc) = mapR NT (fold_left (step cfg) mds acc).
  Proof. revert acc; induction mds as [|md mds IH]; intros acc; simpl; auto. rewrite step_T. apply IH. Qed.

  Lemma update_history_T st data : update_history (P st) (map T data) = mapR P (update_history st data).
  Proof.
    unfold update_history. cbn [relog ps_maps ps_n_users ps_n_items ps_history ps_log].
    rewrite !mapM_map. do 2 (rewrite mapR_bind; apply bind_ext; intros ?). reflexivity.
  Qed.

  Lemma num_update_T cfg x data : upd cfg (NM x) (map T data) = mapR NM (upd cfg x data).
  Proof.
    unfold num_update. rewrite mapR_bind.
    assert (OK : @Ok (@num_state A * list row) (NM x, map T data) = mapR NT (Ok (x, data))) by reflexivity.
    assert (H : forall (r : res (@num_state A)),
      (do x1 <- mapR NM r; do b <- update_history (nm_book x1) (map T data);
       let '(u, s, vt) := nm_f x1 in Ok (mkNum b (u, SMat (as_matrix zero s), vt))) =
      (do x1 <- r; mapR NM (do b <- update_history (nm_book x1) data;
       let '(u, s, vt) := nm_f x1 in Ok (mkNum b (u, SMat (as_matrix zero s), vt))))).
    { intros r. rewrite bind_mapR. apply bind_ext. intros x1. cbn [relog_num nm_book nm_f].
      rewrite update_history_T, bind_mapR, mapR_bind. apply bind_ext. intros b.
      destruct (nm_f x1) as [[u s] vt]. reflexivity. }
    rewrite <- H. f_equal. rewrite OK. clear H.
    destruct (cf_init cfg), (cf_integrator cfg); try reflexivity.
    - rewrite steps_T, bind_mapR, mapR_bind. apply bind_ext. intros [y d]. reflexivity.
    - rewrite steps_T, bind_mapR, mapR_bind. apply bind_ext. intros [y d]. cbn [NT fst snd]. apply by_mode_T.
    - rewrite step_T, bind_mapR, mapR_bind. apply bind_ext. intros [y d]. cbn [NT fst snd].
      change (Ok (NM y, map T d)) with (mapR NT (Ok (y, d))).
      rewrite steps_T, bind_mapR, mapR_bind. apply bind_ext. intros [y' d']. cbn [NT fst snd]. apply by_mode_T.
    - rewrite steps_T, bind_mapR, mapR_bind. apply bind_ext. intros [y d]. cbn [NT fst snd]. apply by_mode_T.
    - rewrite step_T, bind_mapR, mapR_bind. apply bind_ext. intros [y d]. cbn [NT fst snd].
      change (Ok (NM y, map T d)) with (mapR NT (Ok (y, d))).
      rewrite steps_T, bind_mapR, mapR_bind. apply bind_ext. intros [y' d']. cbn [NT fst snd]. apply by_mode_T.
  Qed.
End Num.

Section NumTrain.
  Context {A : Type} (zero : A) (add : A -> A -> A).
  Variable of_rel : Z -> A.
  Variable svds : mat A -> nat -> res (mat A * list A * mat A).

  Lemma num_train_e rank data : num_train zero add of_rel svds rank (map e_ts data) = num_train zero add of_rel svds rank data.
  Proof.
    unfold num_train, svd_train. rewrite (reindex_c e_ts) by reflexivity.
    destruct (get_df_with_updated_indices data) as [[df ms]|e]; cbn [mapR bind fst snd]; [|reflexivity].
    destruct df as [|r df]; [reflexivity|].
    cbn [map]. change (e_ts r :: map e_ts df) with (map e_ts (r :: df)).
    change (r_user (e_ts r) :: map r_user (map e_ts df)) with (map r_user (map e_ts (r :: df))).
    change (r_item (e_ts r) :: map r_item (map e_ts df)) with (map r_item (map e_ts (r :: df))).
    rewrite !map_map. reflexivity.
  Qed.

  Lemma num_train_T t rank data : num_train zero add of_rel svds rank (map (retime t) data) = num_train zero add of_rel svds rank data.
  Proof. rewrite <- num_train_e, map_map, <- (num_train_e rank data). reflexivity. Qed.

  Lemma num_train_log rank data x t : num_train zero add of_rel svds rank data = Ok x -> relog_num t x = x.
  Proof.
    unfold num_train, svd_train. destruct (get_df_with_updated_indices data) as [[df ms]|e]; cbn [bind]; [|discriminate].
    destruct df; [discriminate|]. destruct (_ && _); cbn [bind]; [|discriminate].
    destruct (svds _ _) as [[[u s] vt]|]; cbn [bind]; [|discriminate]. intros H. injection H as <-. reflexivity.
  Qed.

  Lemma num_train_R' t rank data :
    num_train zero add of_rel svds rank (map (retime t) data) = mapR (relog_num t) (num_train zero add of_rel svds rank data).
  Proof.
    rewrite num_train_T. destruct (num_train zero add of_rel svds rank data) as [x|e] eqn:E; [|reflexivity].
    cbn [mapR]. rewrite (num_train_log rank data x t E). reflexivity.
  Qed.
End NumTrain.

(** ** The experiment *)
Section Generic.
  Context {S D A V T : Type} (zero : A) (sub : A -> A -> A).
  Variable norm : mat A -> V.
  Variable div : V -> V -> V.
  Variable minus_one : V.
  Variable clock : nat -> T.
  Variable m : api S D A.
  Variable grow : D -> list row -> res D.
  Variable chunk_mode : bool.
  Variable hm : Z.
  Variable p : row -> row.
  Hypothesis pu : forall r, r_user (p r) = r_user r.
  Hypothesis pi : forall r, r_item (p r) = r_item r.
  Variable rS : S -> S.
  Variable rD : D -> D.
  Hypothesis h_update : forall x c d, update m (rS x) (if chunk_mode then inl (map p c) else inr (rD d)) = mapR rS (update m x (if chunk_mode then inl c else inr d)).
  Hypothesis h_maps : forall x, maps m (rS x) = maps m x.
  Hypothesis h_rec : forall x us b, Dynamic_model.recommend m (rS x) us b = Dynamic_model.recommend m x us b.
  Hypothesis h_items : forall x, n_items m (rS x) = n_items m x.
  Hypothesis h_u : forall x, get_u m (rS x) = get_u m x.
  Hypothesis h_v : forall x, get_v m (rS x) = get_v m x.
  Hypothesis h_grow : forall d c, chunk_mode = false -> grow (rD d) (map p c) = mapR rD (grow d c).
  Variable tu : list Z.
  Notation loop := (exp_loop zero sub norm div minus_one clock m grow tu chunk_mode hm).
  Notation experiment := (dynamical_experiment zero sub norm div minus_one clock m grow tu chunk_mode hm).

  Lemma loop_p stream : forall iter st d l calls dyn,
    loop iter (map (map p) stream) (rS st) (rD d) l calls dyn = loop iter stream st d l calls dyn.
  Proof.
    induction stream as [|c stream IH]; intros iter st d l calls dyn; [reflexivity|].
    cbn [map exp_loop]. rewrite h_maps, (targets_p p pu pi).
    destruct (get_users_to_recommend_test_items c (maps m st)) as [users items].
    rewrite h_rec. apply bind_ext. intros rec.
    apply bind_ext. intros h. apply bind_ext. intros mr'.
    assert (W : wji_step m tu iter (rS st) l (d_wji dyn) = wji_step m tu iter st l (d_wji dyn)).
    { unfold wji_step. rewrite !h_rec, !h_items. reflexivity. }
    rewrite W. apply bind_ext. intros [l1 wjis].
    assert (E : emb_step zero sub norm div minus_one m iter (rS st) l1 (rnd_users dyn) (rnd_items dyn)
                = emb_step zero sub norm div minus_one m iter st l1 (rnd_users dyn) (rnd_items dyn)).
    { unfold emb_step. rewrite !h_u, !h_v. reflexivity. }
    rewrite E. apply bind_ext. intros [[l2 us] vs]. rewrite h_u, h_v.
    apply bind_ext. intros u. apply bind_ext. intros v.
    assert (G : (if chunk_mode then Ok (rD d) else grow (rD d) (map p c)) = mapR rD (if chunk_mode then Ok d else grow d c)).
    { destruct chunk_mode eqn:Ec; [reflexivity|]. apply h_grow. reflexivity. }
    rewrite G, bind_mapR. apply bind_ext. intros d'.
    rewrite h_update, bind_mapR. apply bind_ext. intros st'.
    destruct (iter =? hm); [reflexivity|]. apply IH.
  Qed.

  Lemma experiment_p st0' st0 d stream :
    train m st0' (rD d) = mapR rS (train m st0 d) ->
    experiment st0' (rD d) (map (map p) stream) = experiment st0 d stream.
  Proof.
    intros H. unfold dynamical_experiment. rewrite H, bind_mapR. apply bind_ext. intros st. apply loop_p.
  Qed.
End Generic.

Section Models.
  Context {A V T : Type} (zero one : A) (add mul sub : A -> A -> A).
  Variable of_rel : Z -> A.
  Variable argpart : nat -> list A -> nat -> list nat.
  Variable k : nat.
  Variable norm : mat A -> V.
  Variable div : V -> V -> V.
  Variable minus_one : V.
  Variable clock : nat -> T.
  Variable chunk_mode : bool.
  Variable hm : Z.

  Section Two.
    Variable qr : mat A -> res (mat A * mat A).
    Variable svd : mat A -> res (mat A * list A * mat A).
    Variable rsvd : mat A -> nat -> res (mat A * list A * mat A).
    Variable exceeds_eps : A -> bool.
    Variable argsort : list A -> list nat.
    Variable normal : nat -> nat -> mat A.
    Variable svds : mat A -> nat -> res (mat A * list A * mat A).
    Variable rank : Z.
    Variable cfg : psi_cfg.
    Variable m : api (@num_state A) (list row) A.
    Hypothesis Hm : m = psi_api zero one add mul sub of_rel qr svd rsvd exceeds_eps argsort normal svds argpart k rank cfg \/
                    m = svd_api zero add mul of_rel svds argpart k rank.

    Lemma two_dim t tu st0 st0' initial stream :
      dynamical_experiment zero sub norm div minus_one clock m grow_2d tu chunk_mode hm st0' (map (retime t) initial) (map (map (retime t)) stream) =
      dynamical_experiment zero sub norm div minus_one clock m grow_2d tu chunk_mode hm st0 initial stream.
    Proof.
      apply (experiment_p zero sub norm div minus_one clock m grow_2d chunk_mode hm (retime t)
        (fun _ => eq_refl) (fun _ => eq_refl) (relog_num t) (map (retime t))).
      - intros x c d. destruct Hm as [-> | ->]; cbn [psi_api svd_api update]; destruct chunk_mode;
          try apply num_update_T; apply num_train_R'.
      - destruct Hm as [-> | ->]; reflexivity.
      - destruct Hm as [-> | ->]; reflexivity.
      - destruct Hm as [-> | ->]; reflexivity.
      - destruct Hm as [-> | ->]; reflexivity.
      - destruct Hm as [-> | ->]; reflexivity.
      - intros d c _. unfold grow_2d. cbn [mapR]. rewrite map_app. reflexivity.
      - destruct Hm as [-> | ->]; cbn [psi_api svd_api train]; apply num_train_R'.
    Qed.
  End Two.

  Section Three.
    Context {N : Type}.
    Variables exceeds_eps is_one : A -> bool.
    Variable cfg : nti_cfg.
    Variables (L : nat) (rank : coord) (a ainv : mat A) (att : option (mat A)) (sort_bool : bool).
    Variables (qr : mat A -> res (mat A * mat A)) (rand : nat -> nat -> nat -> mat A).
    Variable rsvd : nat -> mat A -> nat -> res (mat A * list A * mat A).
    Variables (tnorm : ten A -> N) (norm0 : N) (grew : N -> N -> bool) (n_iter : nat) (force : bool).
    Variable rt : @nti_state A -> mode -> routines A.
    Notation sapi := (seq_api zero one add mul sub of_rel exceeds_eps is_one cfg L rank a ainv att sort_bool
                 qr rand rsvd tnorm norm0 grew n_iter force rt argpart k).
    Notation tapi := (td_api zero add mul of_rel L rank a ainv qr rand rsvd tnorm norm0 grew n_iter force argpart k).

    Lemma mapR_same {X} (r : res X) : r = mapR (fun x => x) r.
    Proof. destruct r; reflexivity. Qed.

    Lemma three_dim (m : api (@nti_state A) (list prow) A) t tu st0 initial stream :
      m = sapi \/ m = tapi -> same_order t ->
      dynamical_experiment zero sub norm div minus_one clock m (grow_3d L) tu chunk_mode hm st0 (map (pp (retime t)) initial) (map (map (retime t)) stream) =
      dynamical_experiment zero sub norm div minus_one clock m (grow_3d L) tu chunk_mode hm st0 initial stream.
    Proof.
      intros Hm ord.
      apply (experiment_p zero sub norm div minus_one clock m (grow_3d L) chunk_mode hm (retime t)
        (fun _ => eq_refl) (fun _ => eq_refl) (fun x => x) (map (pp (retime t)))); try reflexivity.
      - intros x c d. rewrite <- mapR_same. destruct Hm as [-> | ->]; cbn [seq_api td_api update]; destruct chunk_mode.
        + apply (nti_update_p zero one add mul sub of_rel exceeds_eps is_one cfg t r_rel ord).
        + rewrite rows_pp. apply (nti_update_p zero one add mul sub of_rel exceeds_eps is_one cfg t r_rel ord).
        + reflexivity.
        + unfold seq_train. apply nti_train_t.
      - intros d c _. unfold grow_3d, grow_table. rewrite rows_pp, <- map_app. apply crop_pp; try reflexivity. exact ord.
      - rewrite <- mapR_same. destruct Hm as [-> | ->]; cbn [seq_api td_api train]; unfold seq_train; apply nti_train_t.
    Qed.

    Lemma seq_weights t w tu st0 initial stream :
      chunk_mode = true -> same_order t ->
      dynamical_experiment zero sub norm div minus_one clock sapi (grow_3d L) tu chunk_mode hm st0 initial (map (map (reweigh t w)) stream) =
      dynamical_experiment zero sub norm div minus_one clock sapi (grow_3d L) tu chunk_mode hm st0 initial stream.
    Proof.
      intros -> ord.
      apply (experiment_p zero sub norm div minus_one clock sapi (grow_3d L) true hm (reweigh t w)
        (fun _ => eq_refl) (fun _ => eq_refl) (fun x => x) (fun d => d)); try reflexivity.
      - intros x c d. rewrite <- mapR_same. cbn [seq_api update]. apply nti_update_p, ord.
      - intros d c H. discriminate H.
      - rewrite <- mapR_same. reflexivity.
    Qed.
  End Three.
End Models.

(** ** From the file *)
Section Files.
  Variable t : row -> Z.
  Notation RT := (retime_t t).
  Variable sort_days : list trow -> list trow.
  Hypothesis days_ok : forall l, sort_days (map RT l) = map RT (sort_days l).

  Definition t_split (x : list trow * list (Z * list trow) * list (trow * Z)) :=
    let '(i, s, l) := x in
    (map RT i, map (fun p => (fst p, map RT (snd p))) s, map (fun p : trow * Z => (RT (fst p), snd p)) l).

  Lemma split_T data cut hm :
    prepare_data_for_experiment tb_index tb_day sort_days (map RT data) cut hm =
    mapR t_split (prepare_data_for_experiment tb_index tb_day sort_days data cut hm).
  Proof.
    unfold prepare_data_for_experiment.
    rewrite (filter_map_gen RT (fun r => tb_index r <? cut) (fun r => tb_index r <? cut)) by reflexivity.
    rewrite (filter_map_gen RT (fun r => negb (tb_index r <? cut)) (fun r => negb (tb_index r <? cut))) by reflexivity.
    set (rest := filter (fun r => negb _) data).
    destruct hm as [hm|]; cbv zeta.
    - rewrite days_ok, (groupby_map RT tb_day tb_day) by reflexivity.
      rewrite map_map. cbn [fst snd].
      rewrite (map_ext (fun x : Z * list trow => (fst x, Z.of_nat (length (map RT (snd x)))))
                       (fun x => (fst x, Z.of_nat (length (snd x))))) by (intros; rewrite map_length; reflexivity).
      set (dm := get_date_to_group_mapping _ hm).
      rewrite mapM_map.
      rewrite (mapM_ext _ (fun r => mapR (fun p : trow * Z => (RT (fst p), snd p))
        (match dget (tb_day r) dm with Some g => Ok (r, g) | None => Err KeyError end)))
        by (intros r; cbn [tb_day retime_t]; destruct (dget _ dm); reflexivity).
      rewrite mapM_mapR, bind_mapR, mapR_bind. apply bind_ext. intros lab. cbn [mapR t_split].
      rewrite (groupby_map (fun p : trow * Z => (RT (fst p), snd p)) snd snd) by reflexivity.
      rewrite !map_map. cbn [fst snd]. f_equal. f_equal. f_equal. apply map_ext. intros [k l]. cbn [fst snd].
      rewrite !map_map. reflexivity.
    - rewrite (groupby_map RT tb_day tb_day) by reflexivity. cbn [mapR t_split]. rewrite !map_map. reflexivity.
  Qed.

  Lemma content_T l : map content (map RT l) = map (retime t) (map content l).
  Proof. rewrite !map_map. reflexivity. Qed.
End Files.

Section Full.
  Context {S D A V T : Type} (zero : A) (sub : A -> A -> A).
  Variable norm : mat A -> V.
  Variable div : V -> V -> V.
  Variable minus_one : V.
  Variable clock : nat -> T.
  Variable m : api S D A.
  Variable grow : D -> list row -> res D.
  Variable chunk_mode : bool.
  Variable entry : list row -> res D.
  Variable users_of : D -> list Z.
  Variable sort_days : list trow -> list trow.
  Variable sort_counts : list (Z * Z) -> list (Z * Z).
  Variable t : row -> Z.
  Hypothesis days_ok : forall l, sort_days (map (retime_t t) l) = map (retime_t t) (sort_days l).
  Variable rD : D -> D.
  Hypothesis entry_T : forall l, entry (map (retime t) l) = mapR rD (entry l).
  Hypothesis users_of_T : forall d, users_of (rD d) = users_of d.
  Notation experiment := (dynamical_experiment zero sub norm div minus_one clock m grow).
  Notation full := (full_dynamical_experiment zero sub norm div minus_one clock m grow chunk_mode entry users_of sort_days sort_counts).

  Lemma full_T data cut hm_min hm st0 st0' :
    (forall tu d stream, experiment tu chunk_mode hm st0' (rD d) (map (map (retime t)) stream) = experiment tu chunk_mode hm st0 d stream) ->
    full (map (retime_t t) data) cut hm_min hm st0' = full data cut hm_min hm st0.
  Proof.
    intros E. unfold full_dynamical_experiment. rewrite split_T, bind_mapR by auto.
    apply bind_ext. intros [[ini stream] left]. cbn [t_split].
    rewrite content_T, entry_T, bind_mapR. apply bind_ext. intros d. cbv zeta.
    assert (E1 : stability_users users_of sort_counts (rD d) (map (fun p : trow * Z => (retime_t t (fst p), snd p)) left) hm
                 = stability_users users_of sort_counts d left hm).
    { unfold stability_users. rewrite users_of_T, map_map. reflexivity. }
    assert (E2 : map (fun g0 : Z * list trow => map content (snd g0)) (map (fun p => (fst p, map (retime_t t) (snd p))) stream)
                 = map (map (retime t)) (map (fun g0 => map content (snd g0)) stream)).
    { rewrite !map_map. apply map_ext. intros [k l]. cbn [snd]. apply content_T. }
    rewrite E1, E2. apply E.
  Qed.
End Full.

Section Reports.
  Context {A V T : Type} (zero one : A) (add mul sub : A -> A -> A).
  Variable of_rel : Z -> A.
  Variable argpart : nat -> list A -> nat -> list nat.
  Variable k : nat.
  Variable norm : mat A -> V.
  Variable div : V -> V -> V.
  Variable minus_one : V.
  Variable clock : nat -> T.
  Variable chunk_mode : bool.

  Lemma columns_2d t qr svd rsvd exceeds_eps argsort normal svds rank cfg (m : api (@num_state A) (list row) A) :
    m = psi_api zero one add mul sub of_rel qr svd rsvd exceeds_eps argsort normal svds argpart k rank cfg \/
    m = svd_api zero add mul of_rel svds argpart k rank ->
    (forall tu hm st0 st0' initial stream,
     dynamical_experiment zero sub norm div minus_one clock m grow_2d tu chunk_mode hm st0' (map (retime t) initial) (map (map (retime t)) stream) =
     dynamical_experiment zero sub norm div minus_one clock m grow_2d tu chunk_mode hm st0 initial stream) /\
    (forall sort_days sort_counts data cut hm_min hm st0 st0',
     (forall l, sort_days (map (retime_t t) l) = map (retime_t t) (sort_days l)) ->
     full_dynamical_experiment zero sub norm div minus_one clock m grow_2d chunk_mode entry_2d users_2d sort_days sort_counts
       (map (retime_t t) data) cut hm_min hm st0' =
     full_dynamical_experiment zero sub norm div minus_one clock m grow_2d chunk_mode entry_2d users_2d sort_days sort_counts
       data cut hm_min hm st0).
  Proof.
    intros Hm.
    assert (E : forall tu hm st0 st0' initial stream,
     dynamical_experiment zero sub norm div minus_one clock m grow_2d tu chunk_mode hm st0' (map (retime t) initial) (map (map (retime t)) stream) =
     dynamical_experiment zero sub norm div minus_one clock m grow_2d tu chunk_mode hm st0 initial stream).
    { intros. apply (two_dim zero one add mul sub of_rel argpart k norm div minus_one clock chunk_mode hm qr svd rsvd exceeds_eps argsort normal svds rank cfg m Hm). }
    split; [exact E|]. intros sd sc data cut hm_min hm st0 st0' days.
    apply (full_T zero sub norm div minus_one clock m grow_2d chunk_mode entry_2d users_2d sd sc t days (map (retime t))); auto.
    intros d. unfold users_2d. apply (users_p (retime t)). reflexivity.
  Qed.

  Lemma columns_3d {N : Type} t exceeds_eps is_one cfg L rank a ainv att sort_bool qr rand rsvd (tnorm : ten A -> N) norm0 grew n_iter force rt
      (m : api (@nti_state A) (list prow) A) :
    same_order t ->
    m = seq_api zero one add mul sub of_rel exceeds_eps is_one cfg L rank a ainv att sort_bool
          qr rand rsvd tnorm norm0 grew n_iter force rt argpart k \/
    m = td_api zero add mul of_rel L rank a ainv qr rand rsvd tnorm norm0 grew n_iter force argpart k ->
    (forall tu hm st0 initial stream,
     dynamical_experiment zero sub norm div minus_one clock m (grow_3d L) tu chunk_mode hm st0
       (map (fun x => (retime t (fst x), snd x)) initial) (map (map (retime t)) stream) =
     dynamical_experiment zero sub norm div minus_one clock m (grow_3d L) tu chunk_mode hm st0 initial stream) /\
    (forall sort_days sort_counts data cut hm_min hm st0,
     (forall l, sort_days (map (retime_t t) l) = map (retime_t t) (sort_days l)) ->
     full_dynamical_experiment zero sub norm div minus_one clock m (grow_3d L) chunk_mode (entry_3d L) users_3d sort_days sort_counts
       (map (retime_t t) data) cut hm_min hm st0 =
     full_dynamical_experiment zero sub norm div minus_one clock m (grow_3d L) chunk_mode (entry_3d L) users_3d sort_days sort_counts
       data cut hm_min hm st0).
  Proof.
    intros ord Hm.
    assert (E : forall tu hm st0 initial stream,
     dynamical_experiment zero sub norm div minus_one clock m (grow_3d L) tu chunk_mode hm st0 (map (pp (retime t)) initial) (map (map (retime t)) stream) =
     dynamical_experiment zero sub norm div minus_one clock m (grow_3d L) tu chunk_mode hm st0 initial stream).
    { intros. apply (three_dim zero one add mul sub of_rel argpart k norm div minus_one clock chunk_mode hm exceeds_eps is_one cfg L rank a ainv att sort_bool
        qr rand rsvd tnorm norm0 grew n_iter force rt m t tu st0 initial stream Hm ord). }
    split; [exact E|]. intros sd sc data cut hm_min hm st0 days.
    apply (full_T zero sub norm div minus_one clock m (grow_3d L) chunk_mode (entry_3d L) users_3d sd sc t days (map (pp (retime t)))); auto.
    - intros l. unfold entry_3d. apply crop_pp; try reflexivity. exact ord.
    - intros d. unfold users_3d. rewrite !map_map. reflexivity.
  Qed.
End Reports.

Lemma relog_attributes A t (x : @num_state A) : attributes (relog_num t x) = attributes x.
Proof. reflexivity. Qed.

Lemma num_update_attributes {A} (zero one : A) add mul sub of_rel qr svd rsvd e a n cfg t x data :
  mapR attributes (num_update zero one add mul sub of_rel qr svd rsvd e a n cfg (relog_num t x) (map (retime t) data)) =
  mapR attributes (num_update zero one add mul sub of_rel qr svd rsvd e a n cfg x data).
Proof. rewrite num_update_T. destruct (num_update _ _ _ _ _ _ _ _ _ _ _ _ _ _ _); reflexivity. Qed.

Lemma columns_demo_holds :
  same_order (fun r => 86400 * r_ts r + r_user r) /\
  get_df_with_cropped_pos_column (map (retime (fun r => 86400 * r_ts r + r_user r)) [mkRow 5 20 2 1; mkRow 6 30 1 1; mkRow 5 10 1 1]) 2 true =
  Ok [(mkRow 5 10 86405 1, 0); (mkRow 5 20 172805 1, 1); (mkRow 6 30 86406 1, 0)].
Proof. split; [intros r r' E; rewrite E; lia|reflexivity]. Qed.
