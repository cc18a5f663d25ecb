(** C102: proofs, from the sequential models to the whole experiment. *)
From Coq Require Import ZArith QArith List Bool Lia.
From Verif Require Import Prelude Prelude_proofs DataPrep_model DataPrep_proofs History_model History_proofs Recommend_model Eval_model
  Psi_model Tirec_model Tensor_model Matrix_model Attention_model LinAlg_model Num_model Tucker_model Hooi_model Nti_model
  Dynamic_model Full_model Seqx_model Tdx_model Retrain_model Retrain_proofs Tables_model Stream_model Pipe_model Rename_spec Rename_main.
Import ListNotations.
Open Scope Z_scope.

Section Seq.
  Variables f g : Z -> Z.
  Hypothesis finj : one_to_one f.
  Hypothesis ginj : one_to_one g.
  Notation "'R'" := (rn f g).
  Notation "'RP'" := (rn_p f g).
  Notation "'M'" := (rn_maps f g).

  Lemma prow_RP d : map p_row (map RP d) = map R (map p_row d).
  Proof. rewrite !map_map. reflexivity. Qed.
  Lemma ppos_RP d : map p_pos (map RP d) = map p_pos d.
  Proof. rewrite !map_map. reflexivity. Qed.

  Lemma combine_l {X Y W} (h : X -> W) l (l' : list Y) :
    combine (map h l) l' = map (fun p => (h (fst p), snd p)) (combine l l').
  Proof. revert l'; induction l as [|x l IH]; intros [|y l']; simpl; auto. rewrite IH. reflexivity. Qed.

  Lemma order_RP x L : add_order_cropped (map R x) L = mapR (map RP) (add_order_cropped x L).
  Proof.
    unfold add_order_cropped. rewrite map_length, !combine_l.
    destruct (_ <=? L)%nat; [reflexivity|]. destruct L; reflexivity.
  Qed.

  Lemma filter_map_gen {X Y} (h : X -> Y) (p : Y -> bool) (q : X -> bool) l :
    (forall x, p (h x) = q x) -> filter p (map h l) = map h (filter q l).
  Proof. intros H. induction l as [|x l IH]; simpl; auto. rewrite H, IH. destruct (q x); reflexivity. Qed.

  Lemma crop_RP (finc : keeps_order f) df L sb :
    get_df_with_cropped_pos_column (map R df) L sb = mapR (map RP) (get_df_with_cropped_pos_column df L sb).
  Proof.
    unfold get_df_with_cropped_pos_column.
    assert (S : (if sb then sort_stable user_ts_leb (map R df) else map R df)
                = map R (if sb then sort_stable user_ts_leb df else df)).
    { destruct sb; [|reflexivity]. rewrite sort_stable_map. f_equal. apply sort_stable_ext. intros x y _ _.
      unfold user_ts_leb. cbn [r_user r_ts rn]. rewrite ltb_f, eqb_f by auto. reflexivity. }
    cbv zeta. rewrite S. generalize (if sb then sort_stable user_ts_leb df else df) as d. intros d.
    destruct d as [|r d]; [reflexivity|]. cbn [map]. change (R r :: map R d) with (map R (r :: d)).
    change (r_user (R r) :: map r_user (map R d)) with (map r_user (map R (r :: d))).
    change (r_user r :: map r_user d) with (map r_user (r :: d)).
    rewrite users_R, np_unique_f by auto. rewrite mapM_map.
    rewrite (mapM_ext _ (fun u => mapR (map RP) (add_order_cropped (filter (fun r => r_user r =? u) (r :: d)) L))).
    2:{ intros u. rewrite (filter_map_gen R _ (fun r => r_user r =? u)); [apply order_RP|].
        intros x. cbn [r_user rn]. apply eqb_f; auto. }
    rewrite mapM_mapR, bind_mapR, mapR_bind. apply bind_ext. intros gs. cbn [mapR]. f_equal.
    rewrite <- concat_map. apply filter_map_gen. reflexivity.
  Qed.

  Definition rn_td (td : train_data) : train_data :=
    mkTrain (M (td_mappings td)) (td_inds td) (td_vals td) (td_shape td) (td_history td) (td_seq td).

  Lemma prepare_RP data seq L : tdrec_prepare (map RP data) seq L = mapR rn_td (tdrec_prepare data seq L).
  Proof.
    unfold tdrec_prepare. rewrite prow_RP, ppos_RP, reindex_R, bind_mapR, mapR_bind by auto.
    apply bind_ext. intros [rows ms]. cbn [fst snd].
    do 3 (rewrite mapR_bind; apply bind_ext; intros ?). reflexivity.
  Qed.

  Lemma preprocess_R (finc : keeps_order f) L ms data sb :
    preprocess_raw_input_data L (M ms) (map R data) sb =
    mapR (fun '(ms', chunk, nu, ni) => (M ms', chunk, nu, ni)) (preprocess_raw_input_data L ms data sb).
  Proof.
    unfold preprocess_raw_input_data. rewrite crop_RP, bind_mapR, mapR_bind by auto. apply bind_ext. intros chunk.
    assert (E1 : map (fun p => r_user (p_row p)) (map RP chunk) = map f (map (fun p => r_user (p_row p)) chunk))
      by (rewrite !map_map; reflexivity).
    assert (E2 : map (fun p => r_item (p_row p)) (map RP chunk) = map g (map (fun p => r_item (p_row p)) chunk))
      by (rewrite !map_map; reflexivity).
    rewrite E1, E2. cbn [rn_maps m_users m_items]. rewrite !new_entities_f, !update_cont_f by auto.
    rewrite prow_RP, ppos_RP.
    rewrite !mapM_map.
    rewrite (mapM_ext _ (fun e => getitem (old2new (update_cont_mapping_struct (m_users ms)
      (new_entities (m_users ms) (map (fun p => r_user (p_row p)) chunk)))) e))
      by (intros e; cbn [rn_map old2new]; apply getitem_rk; auto).
    rewrite mapR_bind; apply bind_ext; intros nu.
    rewrite (mapM_ext _ (fun e => getitem (old2new (update_cont_mapping_struct (m_items ms)
      (new_entities (m_items ms) (map (fun p => r_item (p_row p)) chunk)))) e))
      by (intros e; cbn [rn_map old2new]; apply getitem_rk; auto).
    rewrite mapR_bind; apply bind_ext; intros ni.
    set (mu := update_cont_mapping_struct (m_users ms) _). set (mi := update_cont_mapping_struct (m_items ms) _).
    change (mkMappings (rn_map f mu) (rn_map g mi)) with (M (mkMappings mu mi)).
    rewrite map_df_columns_R by auto. rewrite mapR_bind; apply bind_ext; intros rows. reflexivity.
  Qed.

  Section Nti.
    Context {A : Type} (zero one : A) (add mul sub : A -> A -> A).
    Variable of_val : Z -> A.
    Variables exceeds_eps is_one : A -> bool.
    Variable cfg : nti_cfg.
    Notation NT := (@rn_nti A f g).
    Notation by_mode := (nti_by_mode zero one add mul sub of_val exceeds_eps is_one cfg).
    Notation step := (nti_loop_step zero one add mul sub of_val exceeds_eps is_one cfg).

    Lemma nti_by_mode_R L att rt x data md : by_mode L att rt (NT x) data md = mapR NT (by_mode L att rt x data md).
    Proof.
      unfold nti_by_mode. destruct data as [|e data]; [reflexivity|].
      destruct md.
      - do 3 (rewrite mapR_bind; apply bind_ext; intros ?).
        rewrite mapR_bind; apply bind_ext; intros [fs' core']. reflexivity.
      - do 2 (rewrite mapR_bind; apply bind_ext; intros ?).
        rewrite mapR_bind; apply bind_ext; intros [fs' core']. reflexivity.
      - do 2 (rewrite mapR_bind; apply bind_ext; intros ?).
        rewrite mapR_bind; apply bind_ext; intros [fs' core']. reflexivity.
      - rewrite mapR_bind; apply bind_ext; intros ?.
        rewrite mapR_bind; apply bind_ext; intros [[[u v] w] core']. reflexivity.
    Qed.

    Definition N4 (p : @nti_state A * list entry * list Z * list Z) :=
      let '(x, d, nu, ni) := p in (NT x, d, nu, ni).

    Lemma nti_step_R L att rt acc md : step L att rt (mapR N4 acc) md = mapR N4 (step L att rt acc md).
    Proof.
      unfold nti_loop_step. rewrite bind_mapR, mapR_bind. apply bind_ext. intros [[[x d] nu] ni]. cbn [N4].
      destruct (divide_inds d md nu ni) as [[[pr mask] nu'] ni'].
      rewrite nti_by_mode_R, bind_mapR, mapR_bind. reflexivity.
    Qed.

    Lemma nti_steps_R L att rt mds acc :
      fold_left (step L att rt) mds (mapR N4 acc) = mapR N4 (fold_left (step L att rt) mds acc).
    Proof. revert acc; induction mds as [|md mds IH]; intros acc; simpl; auto. rewrite nti_step_R. apply IH. Qed.

    Lemma add_all_R rt x n m :
      add_all zero one add mul sub exceeds_eps cfg rt (NT x) n m = mapR NT (add_all zero one add mul sub exceeds_eps cfg rt x n m).
    Proof.
      unfold add_all. rewrite mapR_bind. apply bind_ext. intros [fs1 core1].
      rewrite mapR_bind. apply bind_ext. intros [fs2 core2]. reflexivity.
    Qed.

    Lemma nti_update_R (finc : keeps_order f) L a ainv att rt x data sb :
      nti_update zero one add mul sub of_val exceeds_eps is_one cfg L a ainv att rt (NT x) (map R data) sb =
      mapR NT (nti_update zero one add mul sub of_val exceeds_eps is_one cfg L a ainv att rt x data sb).
    Proof.
      unfold nti_update. cbn [rn_nti with_maps nt_maps nt_seq nt_history nt_fs nt_core nt_aw nt_last].
      rewrite preprocess_R, bind_mapR, mapR_bind by auto. apply bind_ext. intros [[[ms chunk] nu] ni].
      destruct (get_train_tensor L (nt_seq x) (map triple_of chunk)) as [seq' delta].
      destruct delta as [|e delta]; [reflexivity|].
      set (x0 := mkNti ms (nt_history x) seq' (nt_fs x) (nt_core x) (nt_aw x) (nt_last x)).
      change (mkNti (M ms) (nt_history x) seq' (nt_fs x) (nt_core x) (nt_aw x) (nt_last x)) with (NT x0).
      rewrite mapR_bind.
      match goal with |- bind ?a ?F = bind ?b ?G => assert (H : a = mapR NT b) end.
      { change (Ok (NT x0, e :: delta, nu, ni)) with (mapR N4 (Ok (x0, e :: delta, nu, ni))).
        destruct (nc_variant cfg).
        - rewrite nti_steps_R, bind_mapR, mapR_bind. apply bind_ext. intros [[[y ?] ?] ?]. reflexivity.
        - rewrite nti_steps_R, bind_mapR, mapR_bind. apply bind_ext. intros [[[y ?] nu'] ni'].
          cbn [N4]. destruct (divide_inds (e :: delta) MNew nu' ni') as [[[? mask] ?] ?]. apply nti_by_mode_R.
        - rewrite add_all_R, bind_mapR, mapR_bind. apply bind_ext. intros y. apply nti_by_mode_R. }
      rewrite H, bind_mapR. apply bind_ext. intros x1.
      rewrite mapR_bind. apply bind_ext. intros [aw last]. reflexivity.
    Qed.

    Context {N : Type}.
    Variables (L : nat) (rank : coord) (a ainv : mat A).
    Variables (qr : mat A -> res (mat A * mat A)) (rand : nat -> nat -> nat -> mat A).
    Variable rsvd : nat -> mat A -> nat -> res (mat A * list A * mat A).
    Variables (tnorm : ten A -> N) (norm0 : N) (grew : N -> N -> bool) (n_iter : nat) (force : bool).

    Lemma nti_train_R d seq :
      nti_train zero add mul of_val qr rand rsvd tnorm norm0 grew L rank a ainv n_iter force (map RP d) seq =
      mapR NT (nti_train zero add mul of_val qr rand rsvd tnorm norm0 grew L rank a ainv n_iter force d seq).
    Proof.
      unfold nti_train. rewrite prepare_RP, bind_mapR, mapR_bind. apply bind_ext. intros td.
      cbn [rn_td td_mappings td_inds td_vals td_shape td_history td_seq].
      destruct (td_shape td) as [[s0 s1] s2].
      rewrite mapR_bind. apply bind_ext. intros [[fs core] c].
      rewrite mapR_bind. apply bind_ext. intros core'.
      rewrite mapR_bind. apply bind_ext. intros [aw last]. reflexivity.
    Qed.
  End Nti.
End Seq.

(** ** The experiment *)
Section Generic.
  Context {S D A V T : Type} (zero : A) (sub : A -> A -> A).
  Variable norm : mat A -> V.
  Variable div : V -> V -> V.
  Variable minus_one : V.
  Variable clock : nat -> T.
  Variable m : api S D A.
  Variable grow : D -> list row -> res D.
  Variable chunk_mode : bool.
  Variable hm : Z.
  Variables f g : Z -> Z.
  Hypothesis finj : one_to_one f.
  Hypothesis ginj : one_to_one g.
  Variable rS : S -> S.
  Variable rD : D -> D.

  Record renames : Prop := mkRenames {
    r_update : forall x c, update m (rS x) (rn_sum f g rD c) = mapR rS (update m x c);
    r_maps : forall x, maps m (rS x) = rn_maps f g (maps m x);
    r_rec_in : forall x us, Dynamic_model.recommend m (rS x) (map f us) true = Dynamic_model.recommend m x us true;
    r_rec_out : forall x us, Dynamic_model.recommend m (rS x) (map f us) false = mapR (map (map g)) (Dynamic_model.recommend m x us false);
    r_items : forall x, n_items m (rS x) = n_items m x;
    r_u : forall x, get_u m (rS x) = get_u m x;
    r_v : forall x, get_v m (rS x) = get_v m x;
    r_grow : forall d c, grow (rD d) (map (rn f g) c) = mapR rD (grow d c) }.
  Hypothesis RN : renames.

  Notation loop tu := (exp_loop zero sub norm div minus_one clock m grow tu chunk_mode hm).
  Notation experiment tu := (dynamical_experiment zero sub norm div minus_one clock m grow tu chunk_mode hm).

  Lemma wji_R tu iter st l s : wji_step m (map f tu) iter (rS st) l s = wji_step m tu iter st l s.
  Proof. unfold wji_step. rewrite !(r_rec_in RN), !(r_items RN). reflexivity. Qed.

  Lemma emb_R iter st l us vs :
    emb_step zero sub norm div minus_one m iter (rS st) l us vs = emb_step zero sub norm div minus_one m iter st l us vs.
  Proof. unfold emb_step. rewrite !(r_u RN), !(r_v RN). reflexivity. Qed.

  Lemma grown_R d c :
    (if chunk_mode then Ok (rD d) else grow (rD d) (map (rn f g) c)) =
    mapR rD (if chunk_mode then Ok d else grow d c).
  Proof. destruct chunk_mode; [reflexivity|]. apply (r_grow RN). Qed.

  Lemma updated_R st c d :
    update m (rS st) (if chunk_mode then inl (map (rn f g) c) else inr (rD d)) =
    mapR rS (update m st (if chunk_mode then inl c else inr d)).
  Proof. rewrite <- (r_update RN). destruct chunk_mode; reflexivity. Qed.

  Lemma loop_R tu stream : forall iter st d l calls dyn,
    loop (map f tu) iter (map (map (rn f g)) stream) (rS st) (rD d) l calls dyn = loop tu iter stream st d l calls dyn.
  Proof.
    induction stream as [|c stream IH]; intros iter st d l calls dyn; [reflexivity|].
    cbn [map exp_loop]. rewrite (r_maps RN), targets_R by auto.
    destruct (get_users_to_recommend_test_items c (maps m st)) as [users items]. cbn [fst snd].
    rewrite (r_rec_out RN), bind_mapR. apply bind_ext. intros rec. rewrite hr_f, mrr_f by auto.
    apply bind_ext. intros h. apply bind_ext. intros mr'. rewrite wji_R. apply bind_ext. intros [l1 wjis].
    rewrite emb_R. apply bind_ext. intros [[l2 us] vs]. rewrite (r_u RN), (r_v RN).
    apply bind_ext. intros u. apply bind_ext. intros v. rewrite grown_R, bind_mapR. apply bind_ext. intros d'.
    rewrite updated_R, bind_mapR. apply bind_ext. intros st'.
    destruct (iter =? hm); [reflexivity|]. apply IH.
  Qed.

  Lemma experiment_R tu st0' st0 d d' stream :
    train m st0' d' = mapR rS (train m st0 d) -> d' = rD d ->
    experiment (map f tu) st0' d' (map (map (rn f g)) stream) = experiment tu st0 d stream.
  Proof.
    intros H ->. unfold dynamical_experiment. rewrite H, bind_mapR. apply bind_ext. intros st. apply loop_R.
  Qed.

  Definition same_emb (l l' : @locals A) : Prop := emb1 l = emb1 l' /\ emb2 l = emb2 l'.

  Lemma bind_Ok {X Y} (r : res X) (F : X -> res Y) y : bind r F = Ok y -> exists x, r = Ok x /\ F x = Ok y.
  Proof. destruct r; simpl; intros H; [eauto|discriminate]. Qed.

  Lemma wji_keeps tu iter st l s l1 w : wji_step m tu iter st l s = Ok (l1, w) -> same_emb l l1.
  Proof.
    unfold wji_step, same_emb. destruct (iter =? 1); [|destruct (iter =? 2)]; intros H;
      repeat (apply bind_Ok in H; destruct H as [? [_ H]]); inversion H; subst; auto.
  Qed.

  Lemma emb_same iter st l l' us vs l2 us2 vs2 :
    same_emb l l' ->
    emb_step zero sub norm div minus_one m iter st l us vs = Ok (l2, us2, vs2) ->
    exists l2', emb_step zero sub norm div minus_one m iter st l' us vs = Ok (l2', us2, vs2) /\ same_emb l2 l2'.
  Proof.
    intros [E1 E2]. unfold emb_step. rewrite <- E1, <- E2.
    destruct (iter =? 1); [|destruct (iter =? 2)]; intros H.
    - apply bind_Ok in H as [u [-> H]]. apply bind_Ok in H as [v [-> H]]. inversion H; subst. cbn [bind].
      eexists; split; [reflexivity|]. split; cbn; auto.
    - apply bind_Ok in H as [u [-> H]]. apply bind_Ok in H as [v [-> H]]. cbn [bind].
      apply bind_Ok in H as [[u1 v1] [-> H]]. cbn [bind].
      apply bind_Ok in H as [u1' [-> H]]. cbn [bind]. apply bind_Ok in H as [v1' [-> H]]. cbn [bind].
      apply bind_Ok in H as [du [-> H]]. cbn [bind]. apply bind_Ok in H as [x [-> H]]. cbn [bind].
      apply bind_Ok in H as [dv [-> H]]. cbn [bind]. apply bind_Ok in H as [y [-> H]]. cbn [bind].
      inversion H; subst. eexists; split; [reflexivity|]. split; cbn; auto.
    - apply bind_Ok in H as [[u1 v1] [-> H]]. cbn [bind].
      apply bind_Ok in H as [u [-> H]]. apply bind_Ok in H as [v [-> H]]. cbn [bind].
      apply bind_Ok in H as [u1' [-> H]]. cbn [bind]. 
      apply bind_Ok in H as [du [-> H]]. cbn [bind]. apply bind_Ok in H as [x [-> H]]. cbn [bind].
      apply bind_Ok in H as [v1' [-> H]]. cbn [bind].
      apply bind_Ok in H as [y [-> H]]. cbn [bind].
      inversion H; subst. eexists; split; [reflexivity|]. split; cbn; auto.
  Qed.

  Lemma loop_weak tu tu' stream : forall iter st d l l' calls dyn dyn' r r',
    same_emb l l' -> same_but_wji dyn dyn' ->
    loop tu iter stream st d l calls dyn = Ok r ->
    loop tu' iter (map (map (rn f g)) stream) (rS st) (rD d) l' calls dyn' = Ok r' ->
    same_but_wji r r'.
  Proof.
    induction stream as [|c stream IH]; intros iter st d l l' calls dyn dyn' r r' SE SW H H'.
    { cbn [map exp_loop] in H, H'. inversion H; inversion H'; subst. exact SW. }
    cbn [map exp_loop] in H, H'. rewrite (r_maps RN), targets_R in H' by auto.
    destruct (get_users_to_recommend_test_items c (maps m st)) as [users items]. cbn [fst snd] in H'.
    apply bind_Ok in H as [rec [E1 H]]. rewrite (r_rec_out RN), bind_mapR, E1 in H'. cbn [bind] in H'.
    rewrite hr_f, mrr_f in H' by auto.
    apply bind_Ok in H as [h [E2 H]]. rewrite E2 in H'. cbn [bind] in H'.
    apply bind_Ok in H as [mr' [E3 H]]. rewrite E3 in H'. cbn [bind] in H'.
    apply bind_Ok in H as [[l1 w] [E4 H]]. apply wji_keeps in E4.
    apply bind_Ok in H' as [[l1' w'] [E4' H']]. apply wji_keeps in E4'.
    apply bind_Ok in H as [[[l2 us] vs] [E5 H]].
    destruct SW as (S1 & S2 & S3 & S4 & S5 & S6 & S7).
    assert (SE1 : same_emb l1 l1').
    { unfold same_emb in *. destruct SE, E4, E4'. split; congruence. }
    destruct (emb_same _ _ _ _ _ _ _ _ _ SE1 E5) as [l2' [E5' SE2]].
    rewrite emb_R, <- S4, <- S5, E5' in H'. cbn [bind] in H'. rewrite (r_u RN), (r_v RN) in H'.
    apply bind_Ok in H as [u [E6 H]]. rewrite E6 in H'. cbn [bind] in H'.
    apply bind_Ok in H as [v [E7 H]]. rewrite E7 in H'. cbn [bind] in H'.
    apply bind_Ok in H as [d' [E8 H]]. rewrite grown_R, bind_mapR, E8 in H'. cbn [bind] in H'.
    apply bind_Ok in H as [st' [E9 H]]. rewrite updated_R, bind_mapR, E9 in H'. cbn [bind] in H'.
    assert (SW' : same_but_wji
      (mkDyn (calculation_time dyn ++ [clock calls]) (d_hr dyn ++ [h]) (d_mrr dyn ++ [mr']) w us vs (nd_users dyn ++ [norm u]) (nd_items dyn ++ [norm v]))
      (mkDyn (calculation_time dyn' ++ [clock calls]) (d_hr dyn' ++ [h]) (d_mrr dyn' ++ [mr']) w' us vs (nd_users dyn' ++ [norm u]) (nd_items dyn' ++ [norm v]))).
    { unfold same_but_wji. cbn [calculation_time d_hr d_mrr rnd_users rnd_items nd_users nd_items].
      rewrite S1, S2, S3, S6, S7. repeat split; reflexivity. }
    destruct (iter =? hm).
    - inversion H; inversion H'; subst. exact SW'.
    - exact (IH _ _ _ _ _ _ _ _ _ _ SE2 SW' H H').
  Qed.

  Lemma experiment_weak tu tu' st0' st0 d stream r r' :
    train m st0' (rD d) = mapR rS (train m st0 d) ->
    experiment tu st0 d stream = Ok r ->
    experiment tu' st0' (rD d) (map (map (rn f g)) stream) = Ok r' -> same_but_wji r r'.
  Proof.
    unfold dynamical_experiment. intros E H H'. rewrite E, bind_mapR in H'.
    apply bind_Ok in H as [st [E1 H]]. rewrite E1 in H'. cbn [bind] in H'.
    apply (loop_weak tu tu' stream 1 st d (mkLocals None None None None) (mkLocals None None None None)
             1%nat (mkDyn [clock 0%nat] [] [] [] [] [] [] []) (mkDyn [clock 0%nat] [] [] [] [] [] [] []) r r'); auto;
      repeat split; reflexivity.
  Qed.
End Generic.

(** ** The whole pipeline *)
Lemma groupby_map {X Y} (h : X -> Y) (key : Y -> Z) (key' : X -> Z) l :
  (forall x, key (h x) = key' x) ->
  groupby key (map h l) = map (fun p => (fst p, map h (snd p))) (groupby key' l).
Proof.
  intros H. unfold groupby. rewrite map_map, (map_ext (fun x => key (h x)) key') by auto.
  rewrite map_map. apply map_ext. intros k. cbn [fst snd]. f_equal.
  apply filter_map_gen. intros x. rewrite H. reflexivity.
Qed.

Section Pipe.
  Variables f g : Z -> Z.
  Notation RT := (rn_t f g).
  Variable sort_days : list trow -> list trow.
  Hypothesis days_ok : forall l, sort_days (map RT l) = map RT (sort_days l).

  Definition rn_split (x : list trow * list (Z * list trow) * list (trow * Z)) :=
    let '(i, s, l) := x in
    (map RT i, map (fun p => (fst p, map RT (snd p))) s, map (fun p : trow * Z => (RT (fst p), snd p)) l).

  Lemma split_R data cut hm :
    prepare_data_for_experiment tb_index tb_day sort_days (map RT data) cut hm =
    mapR rn_split (prepare_data_for_experiment tb_index tb_day sort_days data cut hm).
  Proof.
    unfold prepare_data_for_experiment.
    rewrite (filter_map_gen RT (fun r => tb_index r <? cut) (fun r => tb_index r <? cut)) by reflexivity.
    rewrite (filter_map_gen RT (fun r => negb (tb_index r <? cut)) (fun r => negb (tb_index r <? cut))) by reflexivity.
    set (rest := filter (fun r => negb _) data).
    destruct hm as [hm|]; cbv zeta.
    - rewrite days_ok, (groupby_map RT tb_day tb_day) by reflexivity.
      rewrite map_map. cbn [fst snd].
      rewrite (map_ext (fun x : Z * list trow => (fst x, Z.of_nat (length (map RT (snd x)))))
                       (fun x => (fst x, Z.of_nat (length (snd x))))) by (intros; rewrite map_length; reflexivity).
      set (dm := get_date_to_group_mapping _ hm).
      rewrite mapM_map.
      rewrite (mapM_ext _ (fun r => mapR (fun p : trow * Z => (RT (fst p), snd p))
        (match dget (tb_day r) dm with Some g => Ok (r, g) | None => Err KeyError end)))
        by (intros r; cbn [tb_day rn_t]; destruct (dget _ dm); reflexivity).
      rewrite mapM_mapR, bind_mapR, mapR_bind. apply bind_ext. intros lab. cbn [mapR rn_split].
      rewrite (groupby_map (fun p : trow * Z => (RT (fst p), snd p)) snd snd) by reflexivity.
      rewrite !map_map. cbn [fst snd]. f_equal. f_equal. f_equal. apply map_ext. intros [k l]. cbn [fst snd].
      rewrite !map_map. reflexivity.
    - rewrite (groupby_map RT tb_day tb_day) by reflexivity. cbn [mapR rn_split]. rewrite !map_map. reflexivity.
  Qed.

  Lemma content_R l : map content (map RT l) = map (rn f g) (map content l).
  Proof. rewrite !map_map. reflexivity. Qed.
End Pipe.

Lemma stability_R f sort_counts iu left n :
  keeps_order f -> by_key_only f sort_counts ->
  get_users_stability sort_counts (map f iu) (map (fun p => (f (fst p), snd p)) left) n =
  map f (get_users_stability sort_counts iu left n).
Proof.
  intros inc BK. assert (inj := increasing_one _ inc).
  unfold get_users_stability. rewrite unique_f by auto. rewrite map_map. cbn [snd].
  rewrite (filter_map_gen (fun p : Z * Z => (f (fst p), snd p)) _
    (fun r => memZ (snd r) (firstn n (sort_stable Z.leb (unique (map snd left)))) && memZ (fst r) (unique iu)))
    by (intros x; cbn [fst snd]; rewrite memZ_f by auto; reflexivity).
  set (masked := filter _ left).
  assert (G : groupby fst (map (fun p : Z * Z => (f (fst p), snd p)) masked)
              = map (fun q => (f (fst q), map (fun p : Z * Z => (f (fst p), snd p)) (snd q))) (groupby fst masked)).
  { unfold groupby. rewrite map_map. cbn [fst].
    rewrite <- (map_map fst f), np_unique_f, !map_map by auto. apply map_ext. intros k. cbn [fst snd]. f_equal.
    apply filter_map_gen. intros x. cbn [fst]. apply eqb_f; auto. }
  rewrite G, map_map. cbn [fst snd].
  assert (C : map (fun x : Z * list (Z * Z) => (f (fst x), Z.of_nat (length (unique (map snd (map (fun p : Z * Z => (f (fst p), snd p)) (snd x)))))))
                  (groupby fst masked)
              = map (fun c => (f (fst c), snd c)) (map (fun x => (fst x, Z.of_nat (length (unique (map snd (snd x)))))) (groupby fst masked))).
  { rewrite map_map. apply map_ext. intros [k l]. cbn [fst snd]. rewrite map_map. reflexivity. }
  rewrite C, BK. unfold lastn. rewrite map_length, skipn_map, !map_map. reflexivity.
Qed.

Section Full.
  Context {S D A V T : Type} (zero : A) (sub : A -> A -> A).
  Variable norm : mat A -> V.
  Variable div : V -> V -> V.
  Variable minus_one : V.
  Variable clock : nat -> T.
  Variable m : api S D A.
  Variable grow : D -> list row -> res D.
  Variable chunk_mode : bool.
  Variable entry : list row -> res D.
  Variable users_of : D -> list Z.
  Variable sort_days : list trow -> list trow.
  Variable sort_counts : list (Z * Z) -> list (Z * Z).
  Variables f g : Z -> Z.
  Hypothesis finj : one_to_one f.
  Hypothesis ginj : one_to_one g.
  Hypothesis days_ok : forall l, sort_days (map (rn_t f g) l) = map (rn_t f g) (sort_days l).
  Variable rS : S -> S.
  Variable rD : D -> D.
  Hypothesis RN : renames m grow f g rS rD.
  Hypothesis entry_R : forall l, entry (map (rn f g) l) = mapR rD (entry l).
  Hypothesis users_of_R : forall d, users_of (rD d) = map f (users_of d).
  Notation full := (full_dynamical_experiment zero sub norm div minus_one clock m grow chunk_mode entry users_of sort_days sort_counts).

  Lemma full_R data cut hm_min hm st0' st0 :
    keeps_order f -> by_key_only f sort_counts ->
    (forall d, train m st0' (rD d) = mapR rS (train m st0 d)) ->
    full (map (rn_t f g) data) cut hm_min hm st0' = full data cut hm_min hm st0.
  Proof.
    intros inc BK TR. unfold full_dynamical_experiment. rewrite split_R, bind_mapR by auto.
    apply bind_ext. intros [[ini stream] left]. cbn [rn_split].
    rewrite content_R, entry_R, bind_mapR. apply bind_ext. intros d. cbv zeta.
    assert (E1 : stability_users users_of sort_counts (rD d) (map (fun p : trow * Z => (rn_t f g (fst p), snd p)) left) hm
                 = map f (stability_users users_of sort_counts d left hm)).
    { unfold stability_users. rewrite users_of_R.
      rewrite <- stability_R by auto. f_equal. rewrite !map_map. reflexivity. }
    assert (E2 : map (fun g0 : Z * list trow => map content (snd g0)) (map (fun p => (fst p, map (rn_t f g) (snd p))) stream)
                 = map (map (rn f g)) (map (fun g0 => map content (snd g0)) stream)).
    { rewrite !map_map. apply map_ext. intros [k l]. cbn [snd]. apply content_R. }
    rewrite E1, E2. apply (experiment_R zero sub norm div minus_one clock m grow chunk_mode hm f g finj ginj rS rD RN); auto.
  Qed.

  Lemma full_weak data cut hm_min hm st0' st0 r r' :
    (forall d, train m st0' (rD d) = mapR rS (train m st0 d)) ->
    full data cut hm_min hm st0 = Ok r -> full (map (rn_t f g) data) cut hm_min hm st0' = Ok r' -> same_but_wji r r'.
  Proof.
    intros TR H H'. unfold full_dynamical_experiment in H, H'. rewrite split_R, bind_mapR in H' by auto.
    apply bind_Ok in H as [[[ini stream] left] [E H]]. rewrite E in H'. cbn [bind rn_split] in H'.
    rewrite content_R, entry_R, bind_mapR in H'.
    apply bind_Ok in H as [d [E' H]]. rewrite E' in H'. cbn [bind] in H'.
    assert (E2 : map (fun g0 : Z * list trow => map content (snd g0)) (map (fun p => (fst p, map (rn_t f g) (snd p))) stream)
                 = map (map (rn f g)) (map (fun g0 => map content (snd g0)) stream)).
    { rewrite !map_map. apply map_ext. intros [k l]. cbn [snd]. apply content_R. }
    rewrite E2 in H'.
    eapply (experiment_weak zero sub norm div minus_one clock m grow chunk_mode hm f g finj ginj rS rD RN); eauto.
  Qed.
End Full.

(** ** The models *)
Section Models.
  Variables f g : Z -> Z.
  Hypothesis finj : one_to_one f.
  Hypothesis ginj : one_to_one g.
  Context {A : Type} (zero one : A) (add mul sub : A -> A -> A).
  Variable of_rel : Z -> A.
  Variable argpart : nat -> list A -> nat -> list nat.
  Variable k : nat.

  Section Two.
    Variable qr : mat A -> res (mat A * mat A).
    Variable svd : mat A -> res (mat A * list A * mat A).
    Variable rsvd : mat A -> nat -> res (mat A * list A * mat A).
    Variable exceeds_eps : A -> bool.
    Variable argsort : list A -> list nat.
    Variable normal : nat -> nat -> mat A.
    Variable svds : mat A -> nat -> res (mat A * list A * mat A).
    Variable rank : Z.

    Lemma rn_sum_2d c : (match rn_sum f g (map (rn f g)) c with inl c => c | inr d => d end)
                        = map (rn f g) (match c with inl c => c | inr d => d end).
    Proof. destruct c; reflexivity. Qed.

    Lemma psi_renames cfg :
      renames (psi_api zero one add mul sub of_rel qr svd rsvd exceeds_eps argsort normal svds argpart k rank cfg)
              grow_2d f g (rn_num f g) (map (rn f g)).
    Proof.
      split; cbn [psi_api update maps Dynamic_model.recommend n_items get_u get_v]; intros.
      - rewrite rn_sum_2d. apply num_update_R; auto.
      - reflexivity.
      - unfold svd_recommend. rewrite num_rec_R. apply (recommend_R f g finj argpart _ us k true true).
      - unfold svd_recommend. rewrite num_rec_R. apply (recommend_R f g finj argpart _ us k true false).
      - reflexivity.
      - reflexivity.
      - reflexivity.
      - unfold grow_2d. cbn [mapR]. rewrite map_app. reflexivity.
    Qed.

    Lemma svd_renames :
      renames (svd_api zero add mul of_rel svds argpart k rank) grow_2d f g (rn_num f g) (map (rn f g)).
    Proof.
      split; cbn [svd_api update maps Dynamic_model.recommend n_items get_u get_v]; intros.
      - rewrite rn_sum_2d. apply num_train_R; auto.
      - reflexivity.
      - unfold svd_recommend. rewrite num_rec_R. apply (recommend_R f g finj argpart _ us k true true).
      - unfold svd_recommend. rewrite num_rec_R. apply (recommend_R f g finj argpart _ us k true false).
      - reflexivity.
      - reflexivity.
      - reflexivity.
      - unfold grow_2d. cbn [mapR]. rewrite map_app. reflexivity.
    Qed.
  End Two.

  Section Three.
    Hypothesis finc : keeps_order f.
    Context {N : Type}.
    Variables exceeds_eps is_one : A -> bool.
    Variable cfg : nti_cfg.
    Variables (L : nat) (rank : coord) (a ainv : mat A) (att : option (mat A)) (sort_bool : bool).
    Variables (qr : mat A -> res (mat A * mat A)) (rand : nat -> nat -> nat -> mat A).
    Variable rsvd : nat -> mat A -> nat -> res (mat A * list A * mat A).
    Variables (tnorm : ten A -> N) (norm0 : N) (grew : N -> N -> bool) (n_iter : nat) (force : bool).
    Variable rt : @nti_state A -> mode -> routines A.
    Hypothesis rt_ok : forall x ms, rt (with_maps x ms) = rt x.

    Lemma seq_train_R x d :
      seq_train zero add mul of_rel L rank a ainv qr rand rsvd tnorm norm0 grew n_iter force (rn_nti f g x) (map (rn_p f g) d) =
      mapR (rn_nti f g) (seq_train zero add mul of_rel L rank a ainv qr rand rsvd tnorm norm0 grew n_iter force x d).
    Proof. unfold seq_train. apply nti_train_R; auto. Qed.

    Lemma nti_rec_R x : nti_rec zero add mul (rn_nti f g x) = rn_rec f g (nti_rec zero add mul x).
    Proof. reflexivity. Qed.

    Lemma seq_renames :
      renames (seq_api zero one add mul sub of_rel exceeds_eps is_one cfg L rank a ainv att sort_bool
                 qr rand rsvd tnorm norm0 grew n_iter force rt argpart k)
              (grow_3d L) f g (rn_nti f g) (map (rn_p f g)).
    Proof.
      split; cbn [seq_api update maps Dynamic_model.recommend n_items get_u get_v]; intros.
      - unfold seq_update. unfold rn_nti at 1. rewrite rt_ok.
        replace (match rn_sum f g (map (rn_p f g)) c with inl c0 => c0 | inr d => map p_row d end)
          with (map (rn f g) (match c with inl c0 => c0 | inr d => map p_row d end))
          by (destruct c; cbn [rn_sum]; [reflexivity|rewrite prow_RP; reflexivity]).
        apply nti_update_R; auto.
      - reflexivity.
      - unfold nti_recommend. rewrite nti_rec_R. apply (recommend_R f g finj argpart _ us k true true).
      - unfold nti_recommend. rewrite nti_rec_R. apply (recommend_R f g finj argpart _ us k true false).
      - reflexivity.
      - reflexivity.
      - reflexivity.
      - unfold grow_3d, grow_table. rewrite prow_RP, <- map_app. apply crop_RP; auto.
    Qed.

    Lemma td_renames :
      renames (td_api zero add mul of_rel L rank a ainv qr rand rsvd tnorm norm0 grew n_iter force argpart k)
              (grow_3d L) f g (rn_nti f g) (map (rn_p f g)).
    Proof.
      split; cbn [td_api update maps Dynamic_model.recommend n_items get_u get_v]; intros.
      - destruct c as [c|d]; cbn [rn_sum]; [reflexivity|]. apply seq_train_R.
      - reflexivity.
      - unfold nti_recommend. rewrite nti_rec_R. apply (recommend_R f g finj argpart _ us k true true).
      - unfold nti_recommend. rewrite nti_rec_R. apply (recommend_R f g finj argpart _ us k true false).
      - reflexivity.
      - reflexivity.
      - reflexivity.
      - unfold grow_3d, grow_table. rewrite prow_RP, <- map_app. apply crop_RP; auto.
    Qed.
  End Three.
End Models.

Lemma files_2d :
  forall f g, one_to_one f -> one_to_one g ->
  forall (A V T : Type) (zero one : A) (add mul sub : A -> A -> A) of_rel norm (div : V -> V -> V) minus_one (clock : nat -> T)
    qr svd rsvd exceeds_eps argsort normal svds argpart k rank cfg chunk_mode sort_days sort_counts data cut hm_min hm st0 st0' m,
  m = psi_api zero one add mul sub of_rel qr svd rsvd exceeds_eps argsort normal svds argpart k rank cfg \/
  m = svd_api zero add mul of_rel svds argpart k rank ->
  (forall l, sort_days (map (rn_t f g) l) = map (rn_t f g) (sort_days l)) ->
  let full := full_dynamical_experiment zero sub norm div minus_one clock m grow_2d chunk_mode entry_2d users_2d sort_days sort_counts in
  (forall r r', full data cut hm_min hm st0 = Ok r -> full (map (rn_t f g) data) cut hm_min hm st0' = Ok r' -> same_but_wji r r') /\
  (keeps_order f -> by_key_only f sort_counts ->
   full (map (rn_t f g) data) cut hm_min hm st0' = full data cut hm_min hm st0).
Proof.
  intros f g hf hg A V T zero one add mul sub of_rel norm div m1 clock qr svd rsvd e a n svds argpart k rank cfg cm sd sc data cut hm_min hm st0 st0' m Hm days full.
  assert (RN : renames m grow_2d f g (rn_num f g) (map (rn f g))).
  { destruct Hm as [->| ->]; [apply psi_renames|apply svd_renames]; auto. }
  assert (TR : forall d, train m st0' (map (rn f g) d) = mapR (rn_num f g) (train m st0 d)).
  { destruct Hm as [->| ->]; intros d; cbn [psi_api svd_api train]; apply num_train_R; auto. }
  assert (EN : forall l, entry_2d (map (rn f g) l) = mapR (map (rn f g)) (entry_2d l)) by reflexivity.
  assert (US : forall d, users_2d (map (rn f g) d) = map f (users_2d d)) by (intros d; apply users_R).
  split.
  - intros r r' H H'.
    exact (full_weak zero sub norm div m1 clock m grow_2d cm entry_2d users_2d sd sc f g hf hg days (rn_num f g) (map (rn f g)) RN EN
             data cut hm_min hm st0' st0 r r' TR H H').
  - intros inc BK.
    exact (full_R zero sub norm div m1 clock m grow_2d cm entry_2d users_2d sd sc f g hf hg days (rn_num f g) (map (rn f g)) RN EN US
             data cut hm_min hm st0' st0 inc BK TR).
Qed.

Lemma files_3d :
  forall f g, keeps_order f -> one_to_one g ->
  forall (A V T N : Type) (zero one : A) (add mul sub : A -> A -> A) of_val norm (div : V -> V -> V) minus_one (clock : nat -> T)
    exceeds_eps is_one cfg L rank a ainv att sort_bool qr rand rsvd (tnorm : ten A -> N) norm0 grew n_iter force rt argpart k chunk_mode m,
  (forall x ms, rt (with_maps x ms) = rt x) ->
  m = seq_api zero one add mul sub of_val exceeds_eps is_one cfg L rank a ainv att sort_bool
        qr rand rsvd tnorm norm0 grew n_iter force rt argpart k \/
  m = td_api zero add mul of_val L rank a ainv qr rand rsvd tnorm norm0 grew n_iter force argpart k ->
  (forall test_users hm st0 initial stream,
   let experiment := fun tu st0 => dynamical_experiment zero sub norm div minus_one clock m (grow_3d L) tu chunk_mode hm st0 in
   experiment (map f test_users) (rn_nti f g st0) (map (rn_p f g) initial) (map (map (rn f g)) stream) =
   experiment test_users st0 initial stream) /\
  (forall sort_days sort_counts data cut hm_min hm st0,
   (forall l, sort_days (map (rn_t f g) l) = map (rn_t f g) (sort_days l)) -> by_key_only f sort_counts ->
   let full := full_dynamical_experiment zero sub norm div minus_one clock m (grow_3d L) chunk_mode (entry_3d L) users_3d sort_days sort_counts in
   full (map (rn_t f g) data) cut hm_min hm (rn_nti f g st0) = full data cut hm_min hm st0).
Proof.
  intros f g inc hg A V T N zero one add mul sub of_val norm div m1 clock e i cfg L rank a ainv att sb qr rand rsvd tnorm norm0 grew n_iter force rt argpart k cm m RT Hm.
  assert (hf := increasing_one _ inc).
  assert (RN : renames m (grow_3d L) f g (rn_nti f g) (map (rn_p f g))).
  { destruct Hm as [->| ->]; [apply seq_renames|apply td_renames]; auto. }
  assert (TR : forall x d, train m (rn_nti f g x) (map (rn_p f g) d) = mapR (rn_nti f g) (train m x d)).
  { destruct Hm as [->| ->]; intros x d; cbn [seq_api td_api train]; apply seq_train_R; auto. }
  split.
  - intros tu hm st0 initial stream experiment.
    apply (experiment_R zero sub norm div m1 clock m (grow_3d L) cm hm f g hf hg (rn_nti f g) (map (rn_p f g)) RN); auto.
  - intros sd sc data cut hm_min hm st0 days BK full.
    apply (full_R zero sub norm div m1 clock m (grow_3d L) cm (entry_3d L) users_3d sd sc f g hf hg days (rn_nti f g) (map (rn_p f g)) RN); auto.
    + intros l. unfold entry_3d. apply crop_RP; auto.
    + intros d. unfold users_3d. rewrite prow_RP. apply users_R.
Qed.

Lemma names_demo_holds :
  one_to_one Z.opp /\ keeps_order (fun x => 3 * x + 1) /\ by_key_only Z.opp (fun l => l) /\
  get_df_with_updated_indices (map (rn Z.opp (fun x => 3 * x + 1)) [mkRow 5 10 1 1; mkRow 6 20 2 1; mkRow 5 20 3 1]) =
  Ok ([mkRow 0 0 1 1; mkRow 1 1 2 1; mkRow 0 1 3 1],
      mkMappings (mkMapping [(-5, 0); (-6, 1)] [(0, -5); (1, -6)] 2) (mkMapping [(31, 0); (61, 1)] [(0, 31); (1, 61)] 2)).
Proof.
  split; [intros x y; lia|]. split; [intros x y; lia|]. split; [intros l; reflexivity|]. vm_compute. reflexivity.
Qed.
