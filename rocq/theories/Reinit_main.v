(** C102, C103 for TDRecRe and RandomRec: proofs. *)
From Coq Require Import ZArith QArith List Bool Lia.
From Verif Require Import Prelude Prelude_proofs DataPrep_model DataPrep_proofs History_model Recommend_model Chance_model
  Psi_model Tirec_model Tensor_model Matrix_model Attention_model LinAlg_model Num_model Tucker_model Hooi_model Nti_model
  Dynamic_model Full_model Seqx_model Tdx_model Retrain_model Retrain_proofs Rex_model Tables_model Stream_model Pipe_model
  Rename_spec Rename_main Rename_exp Columns_spec Columns_main.
Import ListNotations.
Open Scope Z_scope.

Section Re.
  Context {A N : Type} (zero : A) (add mul : A -> A -> A).
  Variable of_val : Z -> A.
  Variables (L : nat) (rank : coord) (a ainv : mat A).
  Variables (qr : mat A -> res (mat A * mat A)) (rand : nat -> nat -> nat -> mat A).
  Variable rsvd : nat -> mat A -> nat -> res (mat A * list A * mat A).
  Variables (tnorm : ten A -> N) (norm0 : N) (grew : N -> N -> bool) (n_iter : nat) (force : bool).
  Variable argpart : nat -> list A -> nat -> list nat.
  Variable k : nat.
  Notation retrain := (re_train zero add mul of_val L rank a ainv qr rand rsvd tnorm norm0 grew n_iter force).
  Notation rapi := (re_api zero add mul of_val L rank a ainv qr rand rsvd tnorm norm0 grew n_iter force argpart k).

  (** ** Names *)
  Section Names.
    Variables f g : Z -> Z.
    Hypothesis finj : one_to_one f.
    Hypothesis ginj : one_to_one g.
    Notation R := (rn f g).
    Notation RP := (rn_p f g).
    Notation M := (rn_maps f g).

    Lemma extend_R ms rows : extend_mappings (M ms) (map R rows) = M (extend_mappings ms rows).
    Proof.
      unfold extend_mappings. cbn [rn_maps m_users m_items]. rewrite users_R, items_R.
      rewrite !new_entities_f, !update_cont_f by auto. reflexivity.
    Qed.

    Lemma reprepare_R data seq ms :
      tdrecre_prepare (map RP data) seq L (Some (M ms)) = mapR (rn_td f g) (tdrecre_prepare data seq L (Some ms)).
    Proof.
      unfold tdrecre_prepare. cbv zeta. rewrite prow_RP, ppos_RP, extend_R, map_df_columns_R by auto.
      rewrite mapR_bind. apply bind_ext. intros rows. unfold prepare_tensor. cbv zeta.
      do 3 (rewrite mapR_bind; apply bind_ext; intros ?). reflexivity.
    Qed.

    Lemma retrain_R x d : retrain (rn_nti f g x) (map RP d) = mapR (rn_nti f g) (retrain x d).
    Proof.
      unfold re_train. cbn [rn_nti with_maps nt_seq nt_maps nt_fs]. rewrite reprepare_R, bind_mapR, mapR_bind.
      apply bind_ext. intros td. unfold rn_td. cbn [td_mappings td_inds td_vals td_shape td_history td_seq].
      destruct (td_shape td) as [[s0 s1] s2].
      rewrite mapR_bind. apply bind_ext. intros [[fs core] ?]. rewrite mapR_bind. apply bind_ext. intros core'.
      rewrite mapR_bind. apply bind_ext. intros [aw last]. reflexivity.
    Qed.

    Hypothesis finc : keeps_order f.
    Lemma re_renames : renames rapi (grow_3d L) f g (rn_nti f g) (map RP).
    Proof.
      split; cbn [re_api update maps Dynamic_model.recommend n_items get_u get_v]; intros.
      - destruct c as [c|d]; cbn [rn_sum]; [reflexivity|]. apply retrain_R.
      - reflexivity.
      - unfold nti_recommend. rewrite nti_rec_R. apply (recommend_R f g finj argpart _ us k true true).
      - unfold nti_recommend. rewrite nti_rec_R. apply (recommend_R f g finj argpart _ us k true false).
      - reflexivity.
      - reflexivity.
      - reflexivity.
      - unfold grow_3d, grow_table. rewrite prow_RP, <- map_app. apply crop_RP; auto.
    Qed.
  End Names.

  (** ** Times *)
  Lemma reprepare_e data seq ms : tdrecre_prepare (map (pp e_ts) data) seq L (Some ms) = tdrecre_prepare data seq L (Some ms).
  Proof.
    unfold tdrecre_prepare. cbv zeta. rewrite rows_pp, pos_pp.
    assert (E : extend_mappings ms (map e_ts (map p_row data)) = extend_mappings ms (map p_row data)).
    { unfold extend_mappings. rewrite (users_p e_ts), (items_p e_ts) by reflexivity. reflexivity. }
    rewrite E, (map_df_columns_c e_ts) by reflexivity. rewrite bind_mapR. apply bind_ext. intros rows.
    unfold prepare_tensor. rewrite combine_l, !map_map. reflexivity.
  Qed.

  Lemma reprepare_t t data seq ms : tdrecre_prepare (map (pp (retime t)) data) seq L (Some ms) = tdrecre_prepare data seq L (Some ms).
  Proof. rewrite <- reprepare_e, map_map, <- (reprepare_e data). reflexivity. Qed.

  Lemma retrain_t t x d : retrain x (map (pp (retime t)) d) = retrain x d.
  Proof. unfold re_train. rewrite reprepare_t. reflexivity. Qed.

  Section Exp.
    Context {V T : Type} (sub : A -> A -> A).
    Variable norm : mat A -> V.
    Variable div : V -> V -> V.
    Variable minus_one : V.
    Variable clock : nat -> T.
    Variable chunk_mode : bool.

    Lemma re_names f g : keeps_order f -> one_to_one g ->
      (forall tu hm st0 initial stream,
       let experiment := fun tu st0 => dynamical_experiment zero sub norm div minus_one clock rapi (grow_3d L) tu chunk_mode hm st0 in
       experiment (map f tu) (rn_nti f g st0) (map (rn_p f g) initial) (map (map (rn f g)) stream) = experiment tu st0 initial stream) /\
      (forall sort_days sort_counts data cut hm_min hm st0,
       (forall l, sort_days (map (rn_t f g) l) = map (rn_t f g) (sort_days l)) -> by_key_only f sort_counts ->
       let full := full_dynamical_experiment zero sub norm div minus_one clock rapi (grow_3d L) chunk_mode (entry_3d L) users_3d sort_days sort_counts in
       full (map (rn_t f g) data) cut hm_min hm (rn_nti f g st0) = full data cut hm_min hm st0).
    Proof.
      intros inc hg. assert (hf := increasing_one _ inc).
      assert (RN := re_renames f g hf hg inc).
      assert (TR : forall x d, train rapi (rn_nti f g x) (map (rn_p f g) d) = mapR (rn_nti f g) (train rapi x d)).
      { intros x d. cbn [re_api train]. apply seq_train_R; auto. }
      split.
      - intros tu hm st0 initial stream experiment.
        apply (experiment_R zero sub norm div minus_one clock rapi (grow_3d L) chunk_mode hm f g hf hg (rn_nti f g) (map (rn_p f g)) RN); auto.
      - intros sd sc data cut hm_min hm st0 days BK full.
        apply (full_R zero sub norm div minus_one clock rapi (grow_3d L) chunk_mode (entry_3d L) users_3d sd sc f g hf hg days (rn_nti f g) (map (rn_p f g)) RN); auto.
        + intros l. unfold entry_3d. apply crop_RP; auto.
        + intros d. unfold users_3d. rewrite prow_RP. apply users_R.
    Qed.

    Lemma re_times t : same_order t ->
      (forall tu hm st0 initial stream,
       let experiment := dynamical_experiment zero sub norm div minus_one clock rapi (grow_3d L) tu chunk_mode hm st0 in
       experiment (map (fun x => (retime t (fst x), snd x)) initial) (map (map (retime t)) stream) = experiment initial stream) /\
      (forall sort_days sort_counts data cut hm_min hm st0,
       (forall l, sort_days (map (retime_t t) l) = map (retime_t t) (sort_days l)) ->
       let full := full_dynamical_experiment zero sub norm div minus_one clock rapi (grow_3d L) chunk_mode (entry_3d L) users_3d sort_days sort_counts in
       full (map (retime_t t) data) cut hm_min hm st0 = full data cut hm_min hm st0).
    Proof.
      intros ord.
      assert (E : forall tu hm st0 initial stream,
        dynamical_experiment zero sub norm div minus_one clock rapi (grow_3d L) tu chunk_mode hm st0 (map (pp (retime t)) initial) (map (map (retime t)) stream) =
        dynamical_experiment zero sub norm div minus_one clock rapi (grow_3d L) tu chunk_mode hm st0 initial stream).
      { intros tu hm st0 initial stream.
        apply (experiment_p zero sub norm div minus_one clock rapi (grow_3d L) chunk_mode hm (retime t)
          (fun _ => eq_refl) (fun _ => eq_refl) (fun x => x) (map (pp (retime t)))); try reflexivity.
        - intros x c d. rewrite <- mapR_same. cbn [re_api update]. destruct chunk_mode; [reflexivity|]. apply retrain_t.
        - intros d c _. unfold grow_3d, grow_table. rewrite rows_pp, <- map_app. apply crop_pp; try reflexivity. exact ord.
        - rewrite <- mapR_same. cbn [re_api train]. unfold seq_train. apply nti_train_t. }
      split; [exact E|]. intros sd sc data cut hm_min hm st0 days full.
      apply (full_T zero sub norm div minus_one clock rapi (grow_3d L) chunk_mode (entry_3d L) users_3d sd sc t days (map (pp (retime t)))); auto.
      - intros l. unfold entry_3d. apply crop_pp; try reflexivity. exact ord.
      - intros d. unfold users_3d. rewrite !map_map. reflexivity.
    Qed.
  End Exp.
End Re.

(** ** RandomRec *)
Section Random.
  Context {A : Type} (argpart : nat -> list A -> nat -> list nat).
  Variables f g : Z -> Z.
  Hypothesis finj : one_to_one f.

  Lemma random_loop_R x fv (internal : bool) k us : forall i draws,
    random_loop argpart (rn_rec f g x) fv internal k i us draws =
    (if internal then random_loop argpart x fv internal k i us draws
     else mapR (map (map g)) (random_loop argpart x fv internal k i us draws)).
  Proof.
    induction us as [|u us IH]; intros i draws; [destruct internal; reflexivity|].
    destruct draws as [|d draws]; [destruct internal; reflexivity|]. cbn [random_loop].
    change (drawn (rn_rec f g x) d) with (rn_rec f g (drawn x d)).
    rewrite recommend_user_R, IH. destruct internal; [reflexivity|].
    rewrite bind_mapR, mapR_bind. apply bind_ext. intros r. rewrite bind_mapR, mapR_bind. reflexivity.
  Qed.

  Lemma random_R x draws us k fv (internal : bool) :
    random_recommend argpart (rn_rec f g x) draws (map f us) k fv internal =
    (if internal then random_recommend argpart x draws us k fv internal
     else mapR (map (map g)) (random_recommend argpart x draws us k fv internal)).
  Proof.
    unfold random_recommend. cbn [rn_rec rs_mappings rs_n_users rs_n_items rs_history].
    rewrite mapM_map.
    rewrite (mapM_ext _ (fun uid => getitem (old2new (m_users (rs_mappings x))) uid))
      by (intros u; cbn [rn_maps m_users rn_map old2new]; apply getitem_rk; auto).
    destruct (mapM _ us); cbn [bind mapR]; [|destruct internal; reflexivity].
    destruct (fv && negb _); [destruct internal; reflexivity|]. apply random_loop_R.
  Qed.
End Random.
