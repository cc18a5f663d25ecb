(** C102: proofs. *)
From Coq Require Import ZArith QArith List Bool Lia.
From Verif Require Import Prelude Prelude_proofs DataPrep_model DataPrep_proofs History_model History_proofs Recommend_model Eval_model
  Psi_model Tirec_model Tensor_model Matrix_model Attention_model LinAlg_model Num_model Tucker_model Hooi_model Nti_model
  Dynamic_model Full_model Seqx_model Tdx_model Retrain_model Retrain_proofs Tables_model Stream_model Pipe_model Rename_spec.
Import ListNotations.
Open Scope Z_scope.

(** ** Lists and results *)

Lemma bind_mapR {X Y W} (h : X -> Y) (r : res X) (F : Y -> res W) :
  bind (mapR h r) F = bind r (fun x => F (h x)).
Proof. destruct r; reflexivity. Qed.

Lemma mapR_bind {X Y W} (h : Y -> W) (r : res X) (F : X -> res Y) :
  mapR h (bind r F) = bind r (fun x => mapR h (F x)).
Proof. destruct r; reflexivity. Qed.

Lemma bind_ext {X Y} (r : res X) (F G : X -> res Y) : (forall x, F x = G x) -> bind r F = bind r G.
Proof. intros H. destruct r; simpl; auto. Qed.

Lemma mapR_id {X} (h : X -> X) (r : res X) : (forall x, h x = x) -> mapR h r = r.
Proof. intros H. destruct r; simpl; auto. rewrite H; auto. Qed.

Lemma mapM_map {X Y W} (h : X -> Y) (F : Y -> res W) l : mapM F (map h l) = mapM (fun x => F (h x)) l.
Proof. induction l as [|x l IH]; simpl; auto. rewrite IH. reflexivity. Qed.

Lemma mapM_ext {X Y} (F G : X -> res Y) l : (forall x, F x = G x) -> mapM F l = mapM G l.
Proof. intros H. induction l as [|x l IH]; simpl; auto. rewrite H, IH. reflexivity. Qed.

Lemma mapM_mapR {X Y W} (k : Y -> W) (F : X -> res Y) l :
  mapM (fun x => mapR k (F x)) l = mapR (map k) (mapM F l).
Proof.
  induction l as [|x l IH]; simpl; auto. destruct (F x); simpl; auto.
  rewrite IH. destruct (mapM F l); reflexivity.
Qed.

Lemma enumerate_map {X Y} (h : X -> Y) n l :
  enumerate n (map h l) = map (fun iv => (fst iv, h (snd iv))) (enumerate n l).
Proof. revert n; induction l as [|x l IH]; intros n; simpl; auto. rewrite IH. reflexivity. Qed.

Lemma increasing_one f : keeps_order f -> one_to_one f.
Proof.
  intros H x y E. destruct (Z.lt_trichotomy x y) as [L|[L|L]]; auto; apply H in L; lia.
Qed.

Section OneName.
  Variable f : Z -> Z.
  Hypothesis inj : one_to_one f.

  Lemma eqb_f x y : (f x =? f y) = (x =? y).
  Proof.
    destruct (Z.eqb_spec x y) as [->|N]; [apply Z.eqb_refl|].
    apply Z.eqb_neq. intros E. apply N, inj, E.
  Qed.

  Lemma memZ_f x l : memZ (f x) (map f l) = memZ x l.
  Proof. unfold memZ. induction l as [|y l IH]; simpl; auto. rewrite eqb_f, IH. reflexivity. Qed.

  Lemma filter_map_f (p q : Z -> bool) l :
    (forall x, p (f x) = q x) -> filter p (map f l) = map f (filter q l).
  Proof.
    intros H. induction l as [|x l IH]; simpl; auto. rewrite H, IH. destruct (q x); reflexivity.
  Qed.

  Lemma unique_f l : unique (map f l) = map f (unique l).
  Proof.
    induction l as [|x l IH]; simpl; auto. f_equal. rewrite IH.
    apply filter_map_f. intros y. rewrite eqb_f. reflexivity.
  Qed.

  Lemma dget_rk {V} k (d : dict V) : dget (f k) (rk f d) = dget k d.
  Proof. induction d as [|[k' v] d IH]; simpl; auto. rewrite eqb_f, IH. reflexivity. Qed.

  Lemma dset_rk {V} k (v : V) d : dset (f k) v (rk f d) = rk f (dset k v d).
  Proof.
    induction d as [|[k' v'] d IH]; simpl; auto. rewrite eqb_f. destruct (k =? k'); simpl; auto.
    f_equal. exact IH.
  Qed.

  Lemma dget_rv k d : dget k (rv f d) = option_map f (dget k d).
  Proof. induction d as [|[k' v] d IH]; simpl; auto. destruct (k =? k'); auto. Qed.

  Lemma dset_rv k v d : dset k (f v) (rv f d) = rv f (dset k v d).
  Proof.
    induction d as [|[k' v'] d IH]; simpl; auto. destruct (k =? k'); simpl; auto.
    f_equal. exact IH.
  Qed.

  Lemma dupdate_rk {V} (d : dict V) items : dupdate (rk f d) (rk f items) = rk f (dupdate d items).
  Proof.
    unfold dupdate. revert d; induction items as [|[k v] l IH]; intros d; simpl; auto.
    rewrite dset_rk. apply IH.
  Qed.

  Lemma dupdate_rv d items : dupdate (rv f d) (rv f items) = rv f (dupdate d items).
  Proof.
    unfold dupdate. revert d; induction items as [|[k v] l IH]; intros d; simpl; auto.
    rewrite dset_rv. apply IH.
  Qed.

  Lemma dmem_rk {V} k (d : dict V) : dmem (f k) (rk f d) = dmem k d.
  Proof. unfold dmem. rewrite dget_rk. reflexivity. Qed.

  Lemma getitem_rk {V} k (d : dict V) : getitem (rk f d) (f k) = getitem d k.
  Proof. unfold getitem. rewrite dget_rk. reflexivity. Qed.

  Lemma getitem_rv k d : getitem (rv f d) k = mapR f (getitem d k).
  Proof. unfold getitem. rewrite dget_rv. destruct (dget k d); reflexivity. Qed.

  Lemma get_or_pad_rk k d : get_or_pad (rk f d) (f k) = get_or_pad d k.
  Proof. unfold get_or_pad. rewrite dget_rk. reflexivity. Qed.

  Lemma get_cont_f vs n : get_cont_mapping_struct (map f vs) n = rn_map f (get_cont_mapping_struct vs n).
  Proof.
    unfold get_cont_mapping_struct, rn_map. cbn [old2new new2old n_indices].
    rewrite enumerate_map, map_map. cbn [fst snd].
    assert (E2 : dupdate [] (map (fun iv : Z * Z => (fst iv, f (snd iv))) (enumerate n vs)) = rv f (dupdate [] (enumerate n vs))).
    { apply (dupdate_rv [] (enumerate n vs)). }
    assert (E1 : dupdate [] (map (fun iv : Z * Z => (f (snd iv), fst iv)) (enumerate n vs))
                 = rk f (dupdate [] (map (fun iv : Z * Z => (snd iv, fst iv)) (enumerate n vs)))).
    { rewrite <- (dupdate_rk [] (map _ _)). f_equal. unfold rk. rewrite map_map. reflexivity. }
    rewrite E1, E2. f_equal. unfold dkeys, rv. rewrite !map_length. reflexivity.
  Qed.

  Lemma update_cont_f m extra :
    update_cont_mapping_struct (rn_map f m) (map f extra) = rn_map f (update_cont_mapping_struct m extra).
  Proof.
    unfold update_cont_mapping_struct. cbn [n_indices rn_map].
    rewrite get_cont_f. unfold rn_map. cbn [old2new new2old n_indices].
    rewrite dupdate_rk, dupdate_rv. reflexivity.
  Qed.

  Lemma mfo_f seen a : mfo (map f seen) (map f a) = mfo seen a.
  Proof.
    revert seen; induction a as [|x a IH]; intros seen; simpl; auto.
    rewrite memZ_f. f_equal. apply (IH (x :: seen)).
  Qed.

  Lemma mask_first_f a : mask_first_occurence (map f a) = mask_first_occurence a.
  Proof. rewrite !mask_first_occurence_mfo. apply (mfo_f [] a). Qed.

  Lemma rr_loop_f j l t : rr_loop j (map f l) (f t) = rr_loop j l t.
  Proof. revert j; induction l as [|x l IH]; intros j; simpl; auto. rewrite eqb_f, IH. reflexivity. Qed.

  Lemma combine_map2 {X Y X' Y'} (h : X -> X') (k : Y -> Y') l l' :
    combine (map h l) (map k l') = map (fun p => (h (fst p), k (snd p))) (combine l l').
  Proof. revert l'; induction l as [|x l IH]; intros [|y l']; simpl; auto. rewrite IH. reflexivity. Qed.

  Lemma fold_left_map {X Y W} (h : X -> Y) (F : W -> Y -> W) l a :
    fold_left F (map h l) a = fold_left (fun a x => F a (h x)) l a.
  Proof. revert a; induction l as [|x l IH]; intros a; simpl; auto. Qed.

  Lemma fold_left_ext {X W} (F G : W -> X -> W) l a : (forall a x, F a x = G a x) -> fold_left F l a = fold_left G l a.
  Proof. intros H. revert a; induction l as [|x l IH]; intros a; simpl; auto. rewrite H, IH. reflexivity. Qed.

  Lemma hr_f recs items : hr (map (map f) recs) (map f items) = hr recs items.
  Proof.
    unfold hr. rewrite !map_length, combine_map2, fold_left_map. destruct (_ <? _)%nat; auto.
    rewrite (fold_left_ext _ (fun t rt => if memZ (snd rt) (fst rt) then Qplus t 1 else t)); auto.
    intros a x. cbn [fst snd]. rewrite memZ_f. reflexivity.
  Qed.

  Lemma mrr_f recs items : mrr (map (map f) recs) (map f items) = mrr recs items.
  Proof.
    unfold mrr. rewrite !map_length, combine_map2, fold_left_map. destruct (_ <? _)%nat; auto.
    rewrite (fold_left_ext _ (fun t rt => Qplus t (rr_loop 0 (fst rt) (snd rt)))); auto.
    intros a x. cbn [fst snd]. rewrite rr_loop_f. reflexivity.
  Qed.

  Lemma new_entities_f m vs : new_entities (rn_map f m) (map f vs) = map f (new_entities m vs).
  Proof.
    unfold new_entities. rewrite unique_f. apply filter_map_f.
    intros x. cbn [old2new rn_map]. rewrite dmem_rk. reflexivity.
  Qed.
End OneName.

Section Increasing.
  Variable f : Z -> Z.
  Hypothesis inc : keeps_order f.

  Lemma leb_f x y : (f x <=? f y) = (x <=? y).
  Proof.
    destruct (Z.leb_spec x y) as [L|L].
    - apply Z.leb_le. destruct (Z.eq_dec x y) as [->|N]; [lia|]. assert (H : x < y) by lia. apply inc in H. lia.
    - apply Z.leb_gt. apply inc; auto.
  Qed.

  Lemma ltb_f x y : (f x <? f y) = (x <? y).
  Proof. rewrite !Z.ltb_antisym, leb_f. reflexivity. Qed.

  Lemma np_unique_f l : np_unique (map f l) = map f (np_unique l).
  Proof.
    unfold np_unique. rewrite unique_f by (apply increasing_one; auto). rewrite sort_stable_map. f_equal.
    apply sort_stable_ext. intros x y _ _. apply leb_f.
  Qed.
End Increasing.

(** ** Tables *)
Section Names.
  Variables f g : Z -> Z.
  Hypothesis finj : one_to_one f.
  Hypothesis ginj : one_to_one g.
  Notation "'R'" := (rn f g).
  Notation "'M'" := (rn_maps f g).

  Lemma users_R df : map r_user (map R df) = map f (map r_user df).
  Proof. rewrite !map_map. reflexivity. Qed.
  Lemma items_R df : map r_item (map R df) = map g (map r_item df).
  Proof. rewrite !map_map. reflexivity. Qed.
  Lemma rels_R df : map r_rel (map R df) = map r_rel df.
  Proof. rewrite !map_map. reflexivity. Qed.

  Lemma user_lookup_R mu (df : list row) :
    mapM (fun r => do u <- getitem (old2new (rn_map f mu)) (r_user r); Ok (set_user r u)) (map R df) =
    mapR (map (rn (fun x => x) g)) (mapM (fun r => do u <- getitem (old2new mu) (r_user r); Ok (set_user r u)) df).
  Proof.
    rewrite mapM_map, <- mapM_mapR. apply mapM_ext. intros r. cbn [old2new rn_map r_user rn].
    rewrite getitem_rk by auto. destruct (getitem _ _); reflexivity.
  Qed.

  Lemma item_lookup_R mi (df : list row) :
    mapM (fun r => do u <- getitem (old2new (rn_map g mi)) (r_item r); Ok (set_item r u)) (map (rn (fun x => x) g) df) =
    mapM (fun r => do u <- getitem (old2new mi) (r_item r); Ok (set_item r u)) df.
  Proof.
    rewrite mapM_map. apply mapM_ext. intros r. cbn [old2new rn_map r_item rn].
    rewrite getitem_rk by auto. destruct (getitem _ _); reflexivity.
  Qed.

  Lemma reindex_R df :
    get_df_with_updated_indices (map R df) =
    mapR (fun p => (fst p, M (snd p))) (get_df_with_updated_indices df).
  Proof.
    unfold get_df_with_updated_indices. rewrite users_R, unique_f, get_cont_f by auto.
    rewrite user_lookup_R, bind_mapR, mapR_bind. apply bind_ext. intros df1.
    replace (map r_item (map (rn (fun x => x) g) df1)) with (map g (map r_item df1)) by (rewrite !map_map; reflexivity).
    rewrite unique_f, get_cont_f by auto. rewrite item_lookup_R, mapR_bind. apply bind_ext. reflexivity.
  Qed.

  Lemma map_df_columns_R df ms : map_df_columns (map R df) (M ms) = map_df_columns df ms.
  Proof.
    unfold map_df_columns. cbn [rn_maps m_users m_items].
    rewrite user_lookup_R, bind_mapR. apply bind_ext. intros df1. apply item_lookup_R.
  Qed.

  Lemma select_R {X Y} (h : X -> Y) mask l : select mask (map h l) = map h (select mask l).
  Proof. revert l; induction mask as [|[|] m IH]; intros [|x l]; simpl; auto. rewrite IH. reflexivity. Qed.

  Lemma known_R df ms : get_known_ui_df_mask (map R df) (M ms) = get_known_ui_df_mask df ms.
  Proof.
    unfold get_known_ui_df_mask. rewrite map_map. apply map_ext. intros r.
    cbn [rn_maps m_users m_items rn_map old2new r_user r_item rn].
    rewrite !get_or_pad_rk by auto. reflexivity.
  Qed.

  Lemma targets_R df ms :
    get_users_to_recommend_test_items (map R df) (M ms) =
    (map f (fst (get_users_to_recommend_test_items df ms)), map g (snd (get_users_to_recommend_test_items df ms))).
  Proof.
    unfold get_users_to_recommend_test_items, get_inds_vals. cbn [fst snd].
    rewrite known_R, (select_R (rn f g) (get_known_ui_df_mask df ms) df). set (s := select (get_known_ui_df_mask df ms) df).
    assert (Q1 : map (fun r => (r_user r, r_item r)) (map R s)
      = map (fun p : Z * Z => (f (fst p), g (snd p))) (map (fun r => (r_user r, r_item r)) s))
      by (rewrite !map_map; reflexivity).
    rewrite Q1. set (inds := map (fun r => (r_user r, r_item r)) s).
    assert (Q2 : map fst (map (fun p : Z * Z => (f (fst p), g (snd p))) inds) = map f (map fst inds))
      by (rewrite !map_map; reflexivity).
    rewrite Q2.
    rewrite mask_first_f by auto. rewrite (select_R _ _ inds), !map_map. reflexivity.
  Qed.

  (** ** Recommendations *)
  Section Rec.
    Context {A : Type} (argpart : nat -> list A -> nat -> list nat).
    Definition rn_rec (x : rec_state A) : rec_state A :=
      mkRec (M (rs_mappings x)) (rs_n_users x) (rs_n_items x) (rs_history x) (rs_scores x).

    Lemma recommend_user_R x fv (internal : bool) k i u :
      recommend_user argpart (rn_rec x) fv internal k i u =
      (if internal then recommend_user argpart x fv internal k i u
       else mapR (map g) (recommend_user argpart x fv internal k i u)).
    Proof.
      unfold recommend_user. cbn [rn_rec rs_mappings rs_n_users rs_n_items rs_history rs_scores].
      destruct internal; [reflexivity|].
      rewrite mapR_bind. apply bind_ext. intros s. rewrite mapR_bind. apply bind_ext. intros cand.
      rewrite <- mapM_mapR. apply mapM_ext. intros j. cbn [rn_maps m_items rn_map new2old].
      apply getitem_rv.
    Qed.

    Lemma recommend_loop_R x fv (internal : bool) k i us :
      recommend_loop argpart (rn_rec x) fv internal k i us =
      (if internal then recommend_loop argpart x fv internal k i us
       else mapR (map (map g)) (recommend_loop argpart x fv internal k i us)).
    Proof.
      revert i; induction us as [|u us IH]; intros i; [destruct internal; reflexivity|].
      cbn [recommend_loop]. rewrite recommend_user_R, IH. destruct internal; [reflexivity|].
      rewrite bind_mapR, mapR_bind. apply bind_ext. intros r. rewrite bind_mapR, mapR_bind. reflexivity.
    Qed.

    Lemma recommend_R x us k fv (internal : bool) :
      Recommend_model.recommend argpart (rn_rec x) (map f us) k fv internal =
      (if internal then Recommend_model.recommend argpart x us k fv internal
       else mapR (map (map g)) (Recommend_model.recommend argpart x us k fv internal)).
    Proof.
      unfold Recommend_model.recommend. cbn [rn_rec rs_mappings rs_n_users rs_n_items rs_history].
      rewrite mapM_map.
      rewrite (mapM_ext _ (fun uid => getitem (old2new (m_users (rs_mappings x))) uid))
        by (intros u; cbn [rn_maps m_users rn_map old2new]; apply getitem_rk; auto).
      destruct (mapM _ us); cbn [bind mapR]; [|destruct internal; reflexivity].
      destruct (fv && negb _); [destruct internal; reflexivity|]. apply recommend_loop_R.
    Qed.
  End Rec.

  (** ** SVD and PSI *)
  Section Num.
    Context {A : Type} (zero one : A) (add mul sub : A -> A -> A).
    Variable of_rel : Z -> A.
    Variable qr : mat A -> res (mat A * mat A).
    Variable svd : mat A -> res (mat A * list A * mat A).
    Variable rsvd : mat A -> nat -> res (mat A * list A * mat A).
    Variable exceeds_eps : A -> bool.
    Variable argsort : list A -> list nat.
    Variable normal : nat -> nat -> mat A.
    Variable svds : mat A -> nat -> res (mat A * list A * mat A).
    Notation P := (rn_psi f g).
    Notation NM := (@rn_num A f g).

    Lemma add_new_f h (inj : one_to_one h) m vs :
      add_new_entities (rn_map h m) (map h vs) =
      (rn_map h (fst (add_new_entities m vs)), rk h (snd (add_new_entities m vs))).
    Proof.
      unfold add_new_entities. rewrite unique_f by auto. rewrite update_cont_f, get_cont_f by auto. reflexivity.
    Qed.

    Lemma lookup_u d df : mapM (fun r => getitem (rk f d) (r_user r)) (map R df) = mapM (fun r => @getitem Z d (r_user r)) df.
    Proof. rewrite mapM_map. apply mapM_ext. intros r. apply getitem_rk; auto. Qed.
    Lemma lookup_i d df : mapM (fun r => getitem (rk g d) (r_item r)) (map R df) = mapM (fun r => @getitem Z d (r_item r)) df.
    Proof. rewrite mapM_map. apply mapM_ext. intros r. apply getitem_rk; auto. Qed.
    Lemma dlen_rk {V} h (d : dict V) : dlen (rk h d) = dlen d.
    Proof. unfold dlen, rk. rewrite map_length. reflexivity. Qed.

    Lemma process_R st data md :
      process_data (P st) (map R data) md = mapR (fun p => (M (fst p), snd p)) (process_data st data md).
    Proof.
      unfold process_data. cbn [rn_psi ps_maps ps_n_users ps_n_items rn_maps m_users m_items].
      rewrite users_R, items_R, rels_R.
      destruct md.
      - rewrite !add_new_f by auto.
        destruct (add_new_entities (m_items _) _) as [mi cm]. destruct (add_new_entities (m_users _) _) as [mu rm].
        cbn [fst snd]. rewrite lookup_u, lookup_i, !dlen_rk.
        do 3 (rewrite mapR_bind; apply bind_ext; intros ?). reflexivity.
      - rewrite !add_new_f by auto. destruct (add_new_entities (m_users _) _) as [mu cm]. cbn [fst snd rn_map old2new].
        rewrite lookup_u, lookup_i, !dlen_rk.
        do 3 (rewrite mapR_bind; apply bind_ext; intros ?). reflexivity.
      - rewrite !add_new_f by auto. destruct (add_new_entities (m_items _) _) as [mu cm]. cbn [fst snd rn_map old2new].
        rewrite lookup_u, lookup_i, !dlen_rk.
        do 3 (rewrite mapR_bind; apply bind_ext; intros ?). reflexivity.
      - cbn [rn_map old2new]. rewrite lookup_u, lookup_i.
        do 3 (rewrite mapR_bind; apply bind_ext; intros ?). reflexivity.
    Qed.

    Lemma divide_R df ms md : divide_mask (map R df) (M ms) md = divide_mask df ms md.
    Proof.
      unfold divide_mask. rewrite map_map. apply map_ext. intros r.
      cbn [rn_maps m_users m_items rn_map old2new r_user r_item rn].
      rewrite !get_or_pad_rk by auto. reflexivity.
    Qed.

    Notation by_mode := (num_by_mode zero one add mul sub of_rel qr svd rsvd exceeds_eps argsort normal).
    Notation step := (num_loop_step zero one add mul sub of_rel qr svd rsvd exceeds_eps argsort normal).
    Notation upd := (num_update zero one add mul sub of_rel qr svd rsvd exceeds_eps argsort normal).

    Lemma by_mode_R cfg x data md : by_mode cfg (NM x) (map R data) md = mapR NM (by_mode cfg x data md).
    Proof.
      unfold num_by_mode. destruct data as [|r data]; [reflexivity|].
      cbn [map]. change (R r :: map R data) with (map R (r :: data)).
      cbn [rn_num nm_book nm_f]. rewrite process_R, bind_mapR, mapR_bind. apply bind_ext. intros [ms da].
      cbn [fst snd]. rewrite mapR_bind. apply bind_ext. intros [[u s] vt].
      unfold mapR, rn_num, rn_psi. cbn [nm_book nm_f ps_maps ps_n_users ps_n_items ps_history ps_log].
      rewrite map_app. reflexivity.
    Qed.

    Definition NR (p : @num_state A * list row) := (NM (fst p), map R (snd p)).

    Lemma step_R cfg acc md : step cfg (mapR NR acc) md = mapR NR (step cfg acc md).
    Proof.
      unfold num_loop_step. rewrite bind_mapR, mapR_bind. apply bind_ext. intros [x d].
      cbn [NR fst snd rn_num nm_book rn_psi ps_maps]. rewrite divide_R, !select_R.
      change (mkNum (rn_psi f g (nm_book x)) (nm_f x)) with (NM x).
      rewrite by_mode_R, bind_mapR, mapR_bind. reflexivity.
    Qed.

    Lemma steps_R cfg mds acc : fold_left (step cfg) mds (mapR NR acc) = mapR NR (fold_left (step cfg) mds acc).
    Proof. revert acc; induction mds as [|md mds IH]; intros acc; simpl; auto. rewrite step_R. apply IH. Qed.

    Lemma update_history_R st data : update_history (P st) (map R data) = mapR P (update_history st data).
    Proof.
      unfold update_history. cbn [rn_psi ps_maps rn_maps m_users m_items rn_map old2new ps_n_users ps_n_items ps_history ps_log].
      rewrite lookup_u, lookup_i. do 2 (rewrite mapR_bind; apply bind_ext; intros ?). reflexivity.
    Qed.

    Lemma num_update_R cfg x data : upd cfg (NM x) (map R data) = mapR NM (upd cfg x data).
    Proof.
      unfold num_update. rewrite mapR_bind.
      assert (OK : @Ok (@num_state A * list row) (NM x, map R data) = mapR NR (Ok (x, data))) by reflexivity.
      assert (H : forall (r : res (@num_state A)),
        (do x1 <- mapR NM r; do b <- update_history (nm_book x1) (map R data);
         let '(u, s, vt) := nm_f x1 in Ok (mkNum b (u, SMat (as_matrix zero s), vt))) =
        (do x1 <- r; mapR NM (do b <- update_history (nm_book x1) data;
         let '(u, s, vt) := nm_f x1 in Ok (mkNum b (u, SMat (as_matrix zero s), vt))))).
      { intros r. rewrite bind_mapR. apply bind_ext. intros x1. cbn [rn_num nm_book nm_f].
        rewrite update_history_R, bind_mapR, mapR_bind. apply bind_ext. intros b.
        destruct (nm_f x1) as [[u s] vt]. reflexivity. }
      rewrite <- H. f_equal. rewrite OK. clear H.
      destruct (cf_init cfg), (cf_integrator cfg); try reflexivity.
      - rewrite steps_R, bind_mapR, mapR_bind. apply bind_ext. intros [y d]. reflexivity.
      - rewrite steps_R, bind_mapR, mapR_bind. apply bind_ext. intros [y d]. cbn [NR fst snd]. apply by_mode_R.
      - rewrite step_R, bind_mapR, mapR_bind. apply bind_ext. intros [y d]. cbn [NR fst snd].
        change (Ok (NM y, map R d)) with (mapR NR (Ok (y, d))).
        rewrite steps_R, bind_mapR, mapR_bind. apply bind_ext. intros [y' d']. cbn [NR fst snd]. apply by_mode_R.
      - rewrite steps_R, bind_mapR, mapR_bind. apply bind_ext. intros [y d]. cbn [NR fst snd]. apply by_mode_R.
      - rewrite step_R, bind_mapR, mapR_bind. apply bind_ext. intros [y d]. cbn [NR fst snd].
        change (Ok (NM y, map R d)) with (mapR NR (Ok (y, d))).
        rewrite steps_R, bind_mapR, mapR_bind. apply bind_ext. intros [y' d']. cbn [NR fst snd]. apply by_mode_R.
    Qed.

    Lemma num_train_R rank data :
      num_train zero add of_rel svds rank (map R data) = mapR NM (num_train zero add of_rel svds rank data).
    Proof.
      unfold num_train, svd_train. rewrite reindex_R.
      destruct (get_df_with_updated_indices data) as [[df ms]|e]; cbn [mapR bind fst snd]; [|reflexivity].
      destruct df as [|r df]; [reflexivity|].
      destruct (_ && _); cbn [bind ps_n_users ps_n_items]; [|reflexivity].
      rewrite mapR_bind. apply bind_ext. intros [[u s] vt]. reflexivity.
    Qed.

    Lemma num_rec_R x : num_rec zero add mul (NM x) = rn_rec (num_rec zero add mul x).
    Proof. unfold num_rec. cbn [rn_num nm_f nm_book rn_psi ps_maps ps_history]. destruct (nm_f x) as [[u s] vt]. reflexivity. Qed.
  End Num.
End Names.
