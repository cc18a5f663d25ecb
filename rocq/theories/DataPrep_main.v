(** Assembly of the property statements C01-C06 from the lemmas. *)
From Coq Require Import ZArith List Bool Lia.
From Verif Require Import Prelude Prelude_proofs DataPrep_model DataPrep_spec DataPrep_proofs.
Import ListNotations.
Open Scope Z_scope.

Lemma mapping_struct_bijection_main (values : list Z) (start : Z) :
  let m := get_cont_mapping_struct values start in
  n_indices m = Z.of_nat (length values)
  /\ (contiguous_bijection (f_of m) (g_of m) start (n_indices m) <-> NoDup values)
  /\ (NoDup values -> forall i x, nth_error values i = Some x ->
        f_of m x = Some (start + Z.of_nat i) /\ g_of m (start + Z.of_nat i) = Some x).
Proof.
  intros m. split; [apply n_indices_get|]. split; [apply get_bij_iff|].
  intros Hnd i x Hi.
  pose proof (f_get_first values start i x Hnd Hi) as H. split; auto.
  pose proof (proj2 (get_bij_iff values start) Hnd) as [_ [B _]]. apply B; auto.
Qed.

Lemma reindex_maps df df' ms :
  get_df_with_updated_indices df = Ok (df', ms) ->
  m_users ms = get_cont_mapping_struct (unique (map r_user df)) 0
  /\ m_items ms = get_cont_mapping_struct (unique (map r_item df)) 0
  /\ Forall2 (reindexed (f_of (m_users ms)) (f_of (m_items ms))
                        (g_of (m_users ms)) (g_of (m_items ms))) df df'.
Proof.
  intros H. destruct (reindex_ok df) as [d [m [E [H1 [H2 H3]]]]].
  rewrite E in H. inversion H; subst. auto.
Qed.

Lemma reindex_invertible_main (df : list row) :
  exists df' ms,
    get_df_with_updated_indices df = Ok (df', ms)
    /\ Forall2 (reindexed (f_of (m_users ms)) (f_of (m_items ms))
                          (g_of (m_users ms)) (g_of (m_items ms))) df df'
    /\ bij (m_users ms) 0 /\ bij (m_items ms) 0
    /\ n_indices (m_users ms) = Z.of_nat (ndistinct (map r_user df))
    /\ n_indices (m_items ms) = Z.of_nat (ndistinct (map r_item df))
    /\ (forall pre r post, df = pre ++ r :: post -> ~ In (r_user r) (map r_user pre) ->
          f_of (m_users ms) (r_user r) = Some (Z.of_nat (ndistinct (map r_user pre))))
    /\ (forall pre r post, df = pre ++ r :: post -> ~ In (r_item r) (map r_item pre) ->
          f_of (m_items ms) (r_item r) = Some (Z.of_nat (ndistinct (map r_item pre)))).
Proof.
  destruct (reindex_ok df) as [df' [ms [E [H1 [H2 H3]]]]].
  exists df', ms. rewrite H1, H2 in *.
  split; auto. split; auto.
  split; [apply get_bij_iff, unique_NoDup|].
  split; [apply get_bij_iff, unique_NoDup|].
  rewrite !n_indices_get, !unique_length_ndistinct.
  split; auto. split; auto. split.
  - intros pre r post -> Hn.
    apply (reindex_first_appearance _ _ _ (map r_user post)); auto.
    rewrite map_app. reflexivity.
  - intros pre r post -> Hn.
    apply (reindex_first_appearance _ _ _ (map r_item post)); auto.
    rewrite map_app. reflexivity.
Qed.

Lemma reindexed_unique fu fi gu gi r a b :
  reindexed fu fi gu gi r a ->
  forall fu' fi' gu' gi',
  (forall k v, fu k = Some v -> fu' k = Some v) ->
  (forall k v, fi k = Some v -> fi' k = Some v) ->
  reindexed fu' fi' gu' gi' r b -> a = b.
Proof.
  intros [A1 [_ [A2 [_ [A3 A4]]]]] fu' fi' gu' gi' Hu Hi [B1 [_ [B2 [_ [B3 B4]]]]].
  destruct a, b; simpl in *. apply Hu in A1. apply Hi in A2. congruence.
Qed.

Lemma reindex_append_stable_main (df ext df1 df2 : list row) (ms1 ms2 : mappings) :
  get_df_with_updated_indices df = Ok (df1, ms1) ->
  get_df_with_updated_indices (df ++ ext) = Ok (df2, ms2) ->
  (forall k v, f_of (m_users ms1) k = Some v -> f_of (m_users ms2) k = Some v)
  /\ (forall k v, f_of (m_items ms1) k = Some v -> f_of (m_items ms2) k = Some v)
  /\ firstn (length df) df2 = df1.
Proof.
  intros E1 E2. apply reindex_maps in E1 as [U1 [I1 F1]]. apply reindex_maps in E2 as [U2 [I2 F2]].
  assert (Hu : forall k v, f_of (m_users ms1) k = Some v -> f_of (m_users ms2) k = Some v).
  { intros k v. rewrite U1, U2, map_app. apply reindex_prefix_stable. }
  assert (Hi : forall k v, f_of (m_items ms1) k = Some v -> f_of (m_items ms2) k = Some v).
  { intros k v. rewrite I1, I2, map_app. apply reindex_prefix_stable. }
  split; auto. split; auto.
  clear U1 U2 I1 I2. revert F2.
  generalize dependent df2. induction F1 as [|r a df df1 Ha F1 IH]; intros df2 F2; simpl; auto.
  inversion F2; subst. simpl. f_equal.
  - symmetry. eapply reindexed_unique; eauto.
  - apply IH; auto.
Qed.

Lemma known_false ms r :
  known ms r = false <-> f_of (m_users ms) (r_user r) = None \/ f_of (m_items ms) (r_item r) = None.
Proof.
  unfold known. destruct (f_of (m_users ms) (r_user r)), (f_of (m_items ms) (r_item r));
    split; intros H; auto; try discriminate; destruct H; discriminate.
Qed.

Lemma known_true ms r :
  known ms r = true <-> f_of (m_users ms) (r_user r) <> None /\ f_of (m_items ms) (r_item r) <> None.
Proof.
  unfold known. destruct (f_of (m_users ms) (r_user r)), (f_of (m_items ms) (r_item r));
    split; intros H; try discriminate; try (split; discriminate); destruct H; congruence.
Qed.

Lemma map_df_columns_main (df : list row) (ms : mappings) :
  bij (m_users ms) 0 -> bij (m_items ms) 0 ->
  (map_df_columns df ms = Err KeyError <-> exists r, In r df /\ known ms r = false)
  /\ (forall e, map_df_columns df ms = Err e -> e = KeyError)
  /\ (forall df', map_df_columns df ms = Ok df' ->
        Forall2 (reindexed (f_of (m_users ms)) (f_of (m_items ms))
                           (g_of (m_users ms)) (g_of (m_items ms))) df df').
Proof.
  intros [_ [Bu _]] [_ [Bi _]]. split; [|split].
  - split.
    + intros H.
      destruct (existsb (fun r => negb (known ms r)) df) eqn:E.
      * apply existsb_exists in E as [r [Hr Hk]]. exists r. split; auto.
        apply negb_true_iff in Hk; auto.
      * exfalso. destruct (map_df_columns_total df ms) as [df' Hd]; [|congruence].
        intros r Hr. apply known_true. destruct (known ms r) eqn:K; auto.
        assert (existsb (fun r => negb (known ms r)) df = true); [|congruence].
        apply existsb_exists. exists r. rewrite K; auto.
    + intros [r [Hr Hk]].
      destruct (map_df_columns df ms) as [df'|e] eqn:E.
      * exfalso. apply map_df_columns_ok in E. apply known_false in Hk.
        induction E as [|a b l l' Hab HF IH]; [destruct Hr|].
        destruct Hr as [->|Hr]; auto. destruct Hab as [H1 [H2 _]]. destruct Hk; congruence.
      * f_equal. eapply map_df_columns_err; eauto.
  - intros e. apply map_df_columns_err.
  - intros df' H. apply map_df_columns_ok in H. eapply Forall2_impl; [|exact H].
    simpl. intros r r' [H1 [H2 [H3 H4]]]. unfold reindexed. repeat split; auto.
    + apply Bu; auto.
    + apply Bi; auto.
Qed.

Lemma bij_f_nonneg m k v : bij m 0 -> f_of m k = Some v -> 0 <= v < n_indices m.
Proof.
  intros [_ [B R]] H. apply B in H.
  assert (exists k, g_of m v = Some k) by eauto. apply R in H0. lia.
Qed.

Lemma test_selection_main (df : list row) (ms : mappings) :
  bij (m_users ms) 0 -> bij (m_items ms) 0 ->
  exists sel,
    get_users_to_recommend_test_items df ms = (map r_user sel, map r_item sel)
    /\ FirstPerKey r_user [] (filter (known ms) df) sel
    /\ NoDup (map r_user sel)
    /\ (forall u, In u (map r_user sel) <-> exists r, In r df /\ r_user r = u /\ known ms r = true)
    /\ (forall r, In r sel -> In r df /\ known ms r = true).
Proof.
  intros Bu Bi. destruct (test_selection df ms) as [sel [F E]].
  { intros k v H. apply (bij_f_nonneg _ _ _ Bu H). }
  { intros k v H. apply (bij_f_nonneg _ _ _ Bi H). }
  exists sel. split; auto. split; auto.
  apply FirstPerKey_keys in F as [H1 [H2 H3]]. split; auto. split.
  - intros u. rewrite H2. split.
    + intros [H _]. apply in_map_iff in H as [r [<- Hr]]. apply filter_In in Hr.
      exists r; tauto.
    + intros [r [Hr [<- Hk]]]. split; [|simpl; tauto]. apply in_map, filter_In; auto.
  - intros r Hr. apply H3, filter_In in Hr. auto.
Qed.
