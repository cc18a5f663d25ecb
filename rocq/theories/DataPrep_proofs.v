(** Lemmas about the id-mapping model. *)
From Coq Require Import ZArith List Bool Lia Permutation.
From Verif Require Import Prelude Prelude_proofs DataPrep_model DataPrep_spec.
Import ListNotations.
Open Scope Z_scope.

Lemma dupdate_notin {V} k items (d : dict V) :
  ~ In k (map fst items) -> dget k (dupdate d items) = dget k d.
Proof.
  unfold dupdate. revert d. induction items as [|[k0 v0] items IH]; intros d; simpl; auto.
  intros H. rewrite IH by tauto. apply dget_dset_ne. intuition.
Qed.

Lemma dupdate_in {V} k v items (d : dict V) :
  NoDup (map fst items) -> In (k, v) items -> dget k (dupdate d items) = Some v.
Proof.
  unfold dupdate. revert d. induction items as [|[k0 v0] items IH]; intros d; simpl; [tauto|].
  intros Hnd [H|H]; inversion Hnd; subst.
  - inversion H; subst. fold (dupdate (dset k v d) items).
    rewrite dupdate_notin; auto. apply dget_dset_eq.
  - apply IH; auto.
Qed.

Lemma dset_notin {V} k (v : V) d : dget k d = None -> dset k v d = d ++ [(k, v)].
Proof.
  induction d as [|[k0 v0] d IH]; simpl; auto.
  destruct (k =? k0); [discriminate|]. intros; f_equal; auto.
Qed.

Lemma dupdate_nil_nodup_gen {V} items (d : dict V) :
  NoDup (map fst d ++ map fst items) -> dupdate d items = d ++ items.
Proof.
  unfold dupdate. revert d. induction items as [|[k v] items IH]; intros d H; simpl.
  - rewrite app_nil_r; auto.
  - simpl in H. rewrite dset_notin.
    + rewrite IH. { rewrite <- app_assoc; reflexivity. }
      rewrite map_app, <- app_assoc; simpl; auto.
    + apply dget_None_notin. apply NoDup_remove_2 in H. unfold dkeys.
      intros Hc; apply H. apply in_or_app; auto.
Qed.

Lemma enumerate_fst_NoDup {A} s (l : list A) : NoDup (map fst (enumerate s l)).
Proof.
  rewrite enumerate_fst. apply FinFun.Injective_map_NoDup; [|apply seq_NoDup].
  intros i j H; lia.
Qed.

Lemma new2old_get values start :
  new2old (get_cont_mapping_struct values start) = enumerate start values.
Proof.
  simpl. rewrite dupdate_nil_nodup_gen; auto.
  simpl. apply enumerate_fst_NoDup.
Qed.

Lemma n_indices_get values start :
  n_indices (get_cont_mapping_struct values start) = Z.of_nat (length values).
Proof.
  change (n_indices (get_cont_mapping_struct values start))
    with (Z.of_nat (length (dkeys (new2old (get_cont_mapping_struct values start))))).
  rewrite new2old_get. unfold dkeys. rewrite map_length, enumerate_length. reflexivity.
Qed.

Lemma dget_enumerate {A} s (l : list A) v :
  dget v (enumerate s l) = if (s <=? v) then nth_error l (Z.to_nat (v - s)) else None.
Proof.
  destruct (s <=? v) eqn:E.
  - apply Z.leb_le in E. destruct (nth_error l (Z.to_nat (v - s))) as [x|] eqn:H.
    + apply In_dget; [apply enumerate_fst_NoDup|]. apply enumerate_In. auto.
    + destruct (dget v (enumerate s l)) eqn:H1; auto.
      apply dget_In, enumerate_In in H1. destruct H1; congruence.
  - apply Z.leb_gt in E. destruct (dget v (enumerate s l)) eqn:H1; auto.
    apply dget_In, enumerate_In in H1. lia.
Qed.

Lemma swap_fst {A} s (l : list A) :
  map fst (map (fun iv : Z * A => (snd iv, fst iv)) (enumerate s l)) = l.
Proof. rewrite map_map; simpl. apply enumerate_snd. Qed.

Lemma swap_In s (l : list Z) k v :
  In (k, v) (map (fun iv : Z * Z => (snd iv, fst iv)) (enumerate s l))
  <-> In (v, k) (enumerate s l).
Proof.
  rewrite in_map_iff. split.
  - intros [[a b] [H1 H2]]; simpl in H1. inversion H1; subst; auto.
  - intros H. exists (v, k); auto.
Qed.

Lemma old2new_get_nodup values start :
  NoDup values ->
  old2new (get_cont_mapping_struct values start)
  = map (fun iv => (snd iv, fst iv)) (enumerate start values).
Proof.
  intros H. simpl. rewrite dupdate_nil_nodup_gen; auto.
  simpl. rewrite swap_fst; auto.
Qed.

Lemma g_get values start v :
  g_of (get_cont_mapping_struct values start) v
  = if start <=? v then nth_error values (Z.to_nat (v - start)) else None.
Proof. unfold g_of. rewrite new2old_get. apply dget_enumerate. Qed.

Lemma f_get values start k v :
  NoDup values ->
  (f_of (get_cont_mapping_struct values start) k = Some v
   <-> start <= v /\ nth_error values (Z.to_nat (v - start)) = Some k).
Proof.
  intros Hnd. unfold f_of. rewrite old2new_get_nodup by auto.
  rewrite <- enumerate_In, <- swap_In. split.
  - apply dget_In.
  - apply In_dget. unfold dkeys. rewrite swap_fst; auto.
Qed.

Lemma f_get_None values start k :
  f_of (get_cont_mapping_struct values start) k = None <-> ~ In k values.
Proof.
  unfold f_of. simpl. split.
  - intros H Hin. apply In_nth_error in Hin as [i Hi].
    assert (Hk : In k (map fst (map (fun iv : Z * Z => (snd iv, fst iv)) (enumerate start values)))).
    { rewrite swap_fst. eapply nth_error_In; eauto. }
    revert H Hk. generalize (map (fun iv : Z * Z => (snd iv, fst iv)) (enumerate start values)).
    clear. intros l. unfold dupdate.
    assert (G : forall d : dict Z,
               (In k (map fst l) \/ dget k d <> None) ->
               dget k (fold_left (fun acc kv => dset (fst kv) (snd kv) acc) l d) <> None).
    { induction l as [|[k0 v0] l IH]; intros d Hd; simpl in *; [tauto|].
      apply IH. destruct (Z.eq_dec k k0) as [->|Hne].
      - right. rewrite dget_dset_eq. discriminate.
      - destruct Hd as [[H|H]|H]; [congruence|auto|]. right.
        rewrite dget_dset_ne; auto. }
    intros H Hk. apply (G []); auto.
  - intros H. rewrite dupdate_notin; auto. rewrite swap_fst; auto.
Qed.

Lemma nth_error_range {A} (l : list A) i x : nth_error l i = Some x -> (i < length l)%nat.
Proof. intros H. apply nth_error_Some. congruence. Qed.

Lemma get_bij_iff values start :
  bij (get_cont_mapping_struct values start) start <-> NoDup values.
Proof.
  unfold bij, contiguous_bijection. rewrite n_indices_get. split.
  - intros [_ [Hfg _]]. apply NoDup_nth_error. intros i j Hi Hij.
    destruct (nth_error values i) as [x|] eqn:E.
    2:{ apply nth_error_None in E. lia. }
    assert (G : forall n, nth_error values n = Some x ->
      g_of (get_cont_mapping_struct values start) (start + Z.of_nat n) = Some x).
    { intros n Hn. rewrite g_get.
      replace (start <=? start + Z.of_nat n) with true by (symmetry; apply Z.leb_le; lia).
      replace (Z.to_nat (start + Z.of_nat n - start)) with n by lia. auto. }
    pose proof (proj2 (Hfg _ _) (G i E)) as H1.
    pose proof (proj2 (Hfg _ _) (G j (eq_sym Hij))) as H2.
    rewrite H1 in H2. inversion H2. lia.
  - intros Hnd. split; [lia|]. split.
    + intros k v. rewrite f_get by auto. rewrite g_get.
      destruct (start <=? v) eqn:E.
      * apply Z.leb_le in E. tauto.
      * apply Z.leb_gt in E. split; [lia|discriminate].
    + intros v. rewrite g_get. destruct (start <=? v) eqn:E.
      * apply Z.leb_le in E. split.
        -- intros [k H]. apply nth_error_range in H. lia.
        -- intros H. destruct (nth_error values (Z.to_nat (v - start))) eqn:N; eauto.
           apply nth_error_None in N. lia.
      * apply Z.leb_gt in E. split; [intros [k H]; discriminate|lia].
Qed.

Lemma f_get_first values start i x :
  NoDup values -> nth_error values i = Some x ->
  f_of (get_cont_mapping_struct values start) x = Some (start + Z.of_nat i).
Proof.
  intros Hnd H. apply f_get; auto. split; [lia|].
  replace (Z.to_nat (start + Z.of_nat i - start)) with i by lia. auto.
Qed.

(** ** Extension *)

Lemma g_update m extra v :
  (forall u, g_of m u <> None -> u < n_indices m) ->
  g_of (update_cont_mapping_struct m extra) v
  = if n_indices m <=? v then nth_error extra (Z.to_nat (v - n_indices m)) else g_of m v.
Proof.
  intros Hr. unfold g_of. unfold update_cont_mapping_struct, new2old at 1.
  fold (new2old (get_cont_mapping_struct extra (n_indices m))).
  rewrite new2old_get.
  destruct (n_indices m <=? v) eqn:E.
  - apply Z.leb_le in E.
    destruct (nth_error extra (Z.to_nat (v - n_indices m))) as [x|] eqn:N.
    + apply dupdate_in; [apply enumerate_fst_NoDup|]. apply enumerate_In; auto.
    + rewrite dupdate_notin.
      * destruct (dget v (new2old m)) eqn:G; auto. exfalso.
        assert (v < n_indices m); [|lia]. apply Hr. unfold g_of. congruence.
      * intros H. apply in_map_iff in H as [[a b] [H1 H2]]; simpl in H1; subst.
        apply enumerate_In in H2. destruct H2; congruence.
  - apply Z.leb_gt in E. apply dupdate_notin.
    intros H. apply in_map_iff in H as [[a b] [H1 H2]]; simpl in H1; subst.
    apply enumerate_In in H2. lia.
Qed.

Lemma f_update_old m extra k :
  ~ In k extra -> f_of (update_cont_mapping_struct m extra) k = f_of m k.
Proof.
  intros H. unfold f_of, update_cont_mapping_struct. cbn [old2new].
  apply dupdate_notin.
  fold (dkeys (old2new (get_cont_mapping_struct extra (n_indices m)))).
  rewrite <- dget_None_notin. apply f_get_None; auto.
Qed.

Lemma f_update_new m extra i x :
  NoDup extra -> nth_error extra i = Some x ->
  f_of (update_cont_mapping_struct m extra) x = Some (n_indices m + Z.of_nat i).
Proof.
  intros Hnd H. unfold f_of, update_cont_mapping_struct. cbn [old2new].
  rewrite old2new_get_nodup by auto.
  apply dupdate_in; [rewrite swap_fst; auto|]. apply swap_In, enumerate_In.
  split; [lia|]. replace (Z.to_nat _) with i by lia. auto.
Qed.

Lemma n_update m extra :
  n_indices (update_cont_mapping_struct m extra) = n_indices m + Z.of_nat (length extra).
Proof.
  change (n_indices (update_cont_mapping_struct m extra))
    with (n_indices m + n_indices (get_cont_mapping_struct extra (n_indices m))).
  rewrite n_indices_get. reflexivity.
Qed.

Lemma bij_g_range m u : bij m 0 -> g_of m u <> None -> u < n_indices m.
Proof.
  intros [_ [_ H]] Hu. specialize (H u). destruct (g_of m u) eqn:E; [|congruence].
  destruct H as [H _]. assert (exists k, Some z = Some k) by eauto. apply H in H0. lia.
Qed.

Lemma update_bij_iff m extra :
  bij m 0 ->
  (bij (update_cont_mapping_struct m extra) 0
   <-> NoDup extra /\ forall x, In x extra -> f_of m x = None).
Proof.
  intros Hb. pose proof (fun u => bij_g_range m u Hb) as Hr.
  destruct Hb as [Hn [Hfg Hran]].
  set (m' := update_cont_mapping_struct m extra).
  assert (G : forall i x, nth_error extra i = Some x ->
              g_of m' (n_indices m + Z.of_nat i) = Some x).
  { intros i x H. unfold m'. rewrite g_update by auto.
    replace (n_indices m <=? n_indices m + Z.of_nat i) with true by (symmetry; apply Z.leb_le; lia).
    replace (Z.to_nat _) with i by lia. auto. }
  split.
  - intros [_ [Hfg' _]]. split.
    + apply NoDup_nth_error. intros i j Hi Hij.
      destruct (nth_error extra i) as [x|] eqn:E.
      2:{ apply nth_error_None in E. lia. }
      pose proof (proj2 (Hfg' _ _) (G i x E)) as H1.
      pose proof (proj2 (Hfg' _ _) (G j x (eq_sym Hij))) as H2.
      rewrite H1 in H2. inversion H2. lia.
    + intros x Hx. apply In_nth_error in Hx as [i Hi].
      destruct (f_of m x) as [v|] eqn:E; auto. exfalso.
      assert (Hg : g_of m v = Some x) by (apply Hfg; auto).
      assert (Hv : v < n_indices m) by (apply Hr; congruence).
      assert (Hg' : g_of m' v = Some x).
      { unfold m'. rewrite g_update by auto.
        replace (n_indices m <=? v) with false by (symmetry; apply Z.leb_gt; lia). auto. }
      pose proof (proj2 (Hfg' _ _) (G i x Hi)) as H1.
      pose proof (proj2 (Hfg' _ _) Hg') as H2.
      rewrite H1 in H2. inversion H2. lia.
  - intros [Hnd Hfresh]. unfold bij, contiguous_bijection.
    assert (Nm : n_indices m' = n_indices m + Z.of_nat (length extra)) by apply n_update.
    rewrite Nm. split; [lia|]. split.
    + intros k v. unfold m' at 2. rewrite g_update by auto.
      destruct (in_dec Z.eq_dec k extra) as [Hin|Hin].
      * apply In_nth_error in Hin as [i Hi]. unfold m'.
        rewrite (f_update_new m extra i k) by auto.
        destruct (n_indices m <=? v) eqn:E.
        -- apply Z.leb_le in E. split.
           ++ intros H; inversion H; subst. replace (Z.to_nat _) with i by lia. auto.
           ++ intros H. f_equal.
              assert (i = Z.to_nat (v - n_indices m)); [|lia].
              rewrite NoDup_nth_error in Hnd. apply Hnd; [|congruence].
              eapply nth_error_range; eauto.
        -- apply Z.leb_gt in E. split.
           ++ intros H; inversion H. lia.
           ++ intros H. apply Hfg in H. rewrite Hfresh in H; [discriminate|].
              eapply nth_error_In; eauto.
      * unfold m'. rewrite f_update_old by auto.
        destruct (n_indices m <=? v) eqn:E.
        -- apply Z.leb_le in E. split.
           ++ intros H. apply Hfg in H. assert (v < n_indices m) by (apply Hr; congruence). lia.
           ++ intros H. exfalso. apply Hin. eapply nth_error_In; eauto.
        -- apply Hfg.
    + intros v. unfold m'. rewrite g_update by auto.
      destruct (n_indices m <=? v) eqn:E.
      * apply Z.leb_le in E. split.
        -- intros [k H]. apply nth_error_range in H. lia.
        -- intros H. destruct (nth_error extra _) eqn:N; eauto.
           apply nth_error_None in N. lia.
      * apply Z.leb_gt in E. rewrite Hran. lia.
Qed.

Lemma update_keeps m extra k v :
  (forall x, In x extra -> f_of m x = None) ->
  f_of m k = Some v -> f_of (update_cont_mapping_struct m extra) k = Some v.
Proof.
  intros H Hk. rewrite f_update_old; auto.
  intros Hin. apply H in Hin. congruence.
Qed.

Lemma extension_history m0 exts :
  bij m0 0 ->
  NoDup (concat exts) -> (forall x, In x (concat exts) -> f_of m0 x = None) ->
  let m := fold_left update_cont_mapping_struct exts m0 in
  bij m 0
  /\ n_indices m = n_indices m0 + Z.of_nat (length (concat exts))
  /\ (forall k v, f_of m0 k = Some v -> f_of m k = Some v)
  /\ (forall i x, nth_error (concat exts) i = Some x ->
        f_of m x = Some (n_indices m0 + Z.of_nat i))
  /\ (forall k, f_of m0 k = None -> ~ In k (concat exts) -> f_of m k = None).
Proof.
  revert m0. induction exts as [|e exts IH]; intros m0 Hb Hnd Hfr; simpl.
  - split; auto. split; [lia|]. split; auto. split; auto.
    intros i x H. destruct i; discriminate.
  - simpl in Hnd, Hfr. apply NoDup_app_inv in Hnd as [Hn1 [Hn2 Hdisj]].
    assert (Hfe : forall x, In x e -> f_of m0 x = None).
    { intros x Hx. apply Hfr, in_or_app; auto. }
    specialize (IH (update_cont_mapping_struct m0 e)).
    destruct IH as [B [N [K [P Q]]]].
    + apply update_bij_iff; auto.
    + auto.
    + intros x Hx. rewrite f_update_old.
      * apply Hfr, in_or_app; auto.
      * intros Hc. apply (Hdisj x); auto.
    + split; auto. split; [rewrite N, n_update, app_length, Nat2Z.inj_add; lia|]. split; [|split].
      * intros k v Hk. apply K. apply update_keeps; auto.
      * intros i x Hi. destruct (Nat.lt_ge_cases i (length e)) as [Hl|Hl].
        -- rewrite nth_error_app1 in Hi by auto. apply K.
           apply f_update_new; auto.
        -- rewrite nth_error_app2 in Hi by auto. rewrite (P _ _ Hi), n_update.
           f_equal. lia.
      * intros k Hk Hkn. rewrite in_app_iff in Hkn.
        apply Q; [|tauto]. rewrite f_update_old; tauto.
Qed.

(** ** Re-indexing *)

Lemma f_get_total values start x :
  In x values -> exists v, f_of (get_cont_mapping_struct values start) x = Some v.
Proof.
  intros H. destruct (f_of (get_cont_mapping_struct values start) x) eqn:E; eauto.
  apply f_get_None in E. tauto.
Qed.

Lemma user_pass_gen (d : dict Z) df df1 :
  mapM (fun r => do u <- getitem d (r_user r); Ok (set_user r u)) df = Ok df1 <->
  Forall2 (fun r r' => dget (r_user r) d = Some (r_user r') /\ r' = set_user r (r_user r')) df df1.
Proof.
  rewrite mapM_Ok_iff. split; intros H; eapply Forall2_impl; try exact H; simpl.
  - intros r r' Hr. unfold getitem in Hr. destruct (dget (r_user r) d) eqn:E; simpl in Hr; [|discriminate].
    inversion Hr; subst. simpl. auto.
  - intros r r' [H1 H2]. unfold getitem. rewrite H1. simpl. congruence.
Qed.

Lemma item_pass_gen (d : dict Z) df df1 :
  mapM (fun r => do u <- getitem d (r_item r); Ok (set_item r u)) df = Ok df1 <->
  Forall2 (fun r r' => dget (r_item r) d = Some (r_item r') /\ r' = set_item r (r_item r')) df df1.
Proof.
  rewrite mapM_Ok_iff. split; intros H; eapply Forall2_impl; try exact H; simpl.
  - intros r r' Hr. unfold getitem in Hr. destruct (dget (r_item r) d) eqn:E; simpl in Hr; [|discriminate].
    inversion Hr; subst. simpl. auto.
  - intros r r' [H1 H2]. unfold getitem. rewrite H1. simpl. congruence.
Qed.

Lemma mapM_total {A B} (f : A -> res B) l :
  (forall x, In x l -> exists y, f x = Ok y) -> exists ys, mapM f l = Ok ys.
Proof.
  induction l as [|x l IH]; simpl; intros H; eauto.
  destruct (H x) as [y Hy]; auto. destruct IH as [ys Hys]; auto.
  rewrite Hy, Hys. simpl. eauto.
Qed.

Lemma Forall2_map_eq {A B} (f : A -> B) l l' :
  Forall2 (fun x y => f y = f x) l l' -> map f l' = map f l.
Proof. induction 1; simpl; congruence. Qed.


Lemma Forall2_trans_gen {A B C} (P : A -> B -> Prop) (Q : B -> C -> Prop) (R : A -> C -> Prop) l1 l2 l3 :
  (forall x y z, P x y -> Q y z -> R x z) ->
  Forall2 P l1 l2 -> Forall2 Q l2 l3 -> Forall2 R l1 l3.
Proof.
  intros HI H. revert l3. induction H; intros l3 H3; inversion H3; subst; constructor; eauto.
Qed.

Lemma reindex_ok df :
  exists df' ms,
    get_df_with_updated_indices df = Ok (df', ms)
    /\ m_users ms = get_cont_mapping_struct (unique (map r_user df)) 0
    /\ m_items ms = get_cont_mapping_struct (unique (map r_item df)) 0
    /\ Forall2 (reindexed (f_of (m_users ms)) (f_of (m_items ms))
                          (g_of (m_users ms)) (g_of (m_items ms))) df df'.
Proof.
  unfold get_df_with_updated_indices.
  set (mu := get_cont_mapping_struct (unique (map r_user df)) 0).
  destruct (mapM_total (fun r => do u <- getitem (old2new mu) (r_user r); Ok (set_user r u)) df)
    as [df1 H1].
  { intros r Hr. unfold getitem.
    destruct (f_get_total (unique (map r_user df)) 0 (r_user r)) as [v Hv].
    { apply unique_In, in_map; auto. }
    unfold f_of in Hv. fold mu in Hv. rewrite Hv. simpl. eauto. }
  rewrite H1. cbn [bind]. apply user_pass_gen in H1.
  assert (Hitems : map r_item df1 = map r_item df).
  { apply Forall2_map_eq. eapply Forall2_impl; [|exact H1]. simpl.
    intros r r' [_ ->]. reflexivity. }
  rewrite Hitems.
  set (mi := get_cont_mapping_struct (unique (map r_item df)) 0).
  destruct (mapM_total (fun r => do i <- getitem (old2new mi) (r_item r); Ok (set_item r i)) df1)
    as [df2 H2].
  { intros r Hr. unfold getitem.
    destruct (f_get_total (unique (map r_item df)) 0 (r_item r)) as [v Hv].
    { rewrite <- Hitems. apply unique_In, in_map; auto. }
    unfold f_of in Hv. fold mi in Hv. rewrite Hv. simpl. eauto. }
  rewrite H2. cbn [bind]. apply item_pass_gen in H2.
  exists df2, (mkMappings mu mi). cbn [m_users m_items]. split; [reflexivity|]. split; [reflexivity|].
  split; [reflexivity|].
  pose proof (proj2 (get_bij_iff (unique (map r_user df)) 0) (unique_NoDup _)) as [_ [Bu _]].
  pose proof (proj2 (get_bij_iff (unique (map r_item df)) 0) (unique_NoDup _)) as [_ [Bi _]].
  fold mu in Bu. fold mi in Bi.
  eapply Forall2_trans_gen; [|exact H1|exact H2]. simpl.
  intros r r1 r2 [A1 A2] [C1 C2]. rewrite A2 in C1, C2. simpl in C1.
  rewrite C2. unfold reindexed; simpl.
  repeat split; auto.
  - apply Bu; auto.
  - apply Bi; auto.
Qed.

Lemma unique_length_ndistinct l : length (unique l) = ndistinct l.
Proof.
  unfold ndistinct. apply Permutation_length. apply NoDup_Permutation.
  - apply unique_NoDup.
  - apply NoDup_nodup.
  - intros x. rewrite unique_In, nodup_In. tauto.
Qed.

Lemma unique_nth_first pre x post :
  ~ In x pre -> nth_error (unique (pre ++ x :: post)) (ndistinct pre) = Some x.
Proof.
  intros H. rewrite unique_app. simpl.
  rewrite <- unique_length_ndistinct.
  rewrite nth_error_app2 by lia. rewrite Nat.sub_diag.
  replace (memZ x pre) with false by (symmetry; apply memZ_false; auto). reflexivity.
Qed.

Lemma reindex_first_appearance (vals pre : list Z) x post :
  vals = pre ++ x :: post -> ~ In x pre ->
  f_of (get_cont_mapping_struct (unique vals) 0) x = Some (Z.of_nat (ndistinct pre)).
Proof.
  intros -> H. rewrite (f_get_first _ 0 (ndistinct pre) x).
  - reflexivity.
  - apply unique_NoDup.
  - apply unique_nth_first; auto.
Qed.

Lemma first_occurrence_split (x : Z) l :
  In x l -> exists pre post, l = pre ++ x :: post /\ ~ In x pre.
Proof.
  induction l as [|y l IH]; simpl; [tauto|]. intros H.
  destruct (Z.eq_dec x y) as [->|Hne].
  - exists [], l; auto.
  - destruct H as [H|H]; [congruence|]. destruct (IH H) as [pre [post [-> Hn]]].
    exists (y :: pre), post. split; auto. simpl. intuition.
Qed.

Lemma reindex_prefix_stable vals ext k v :
  f_of (get_cont_mapping_struct (unique vals) 0) k = Some v ->
  f_of (get_cont_mapping_struct (unique (vals ++ ext)) 0) k = Some v.
Proof.
  intros H.
  assert (Hin : In k vals).
  { destruct (in_dec Z.eq_dec k vals); auto. exfalso.
    assert (f_of (get_cont_mapping_struct (unique vals) 0) k = None); [|congruence].
    apply f_get_None. rewrite unique_In. auto. }
  apply first_occurrence_split in Hin as [pre [post [E Hn]]].
  rewrite (reindex_first_appearance vals pre k post) in H by auto.
  rewrite (reindex_first_appearance (vals ++ ext) pre k (post ++ ext)); auto.
  rewrite E, <- app_assoc. reflexivity.
Qed.

(** ** Mapping through existing mappings *)

Lemma mapM_Err_iff {A B} (f : A -> res B) l e :
  (forall x e', f x = Err e' -> e' = e) ->
  (mapM f l = Err e <-> exists x, In x l /\ f x = Err e).
Proof.
  intros He. induction l as [|x l IH]; simpl.
  - split; [discriminate|]. intros [x [[] _]].
  - destruct (f x) as [y|e'] eqn:E; simpl.
    + destruct (mapM f l) as [ys|e'] eqn:E'; simpl.
      * split; [discriminate|]. intros [z [[->|Hz] Hf]]; [congruence|].
        assert (Ok ys = Err e) by (apply IH; eauto). discriminate.
      * split; intros H.
        -- apply IH in H as [z [Hz Hf]]. eauto.
        -- destruct H as [z [[->|Hz] Hf]]; [congruence|]. apply IH; eauto.
    + split; intros H.
      * inversion H; subst. eauto.
      * f_equal. eapply He; eauto.
Qed.

Lemma mapM_cases {A B} (f : A -> res B) l e :
  (forall x e', f x = Err e' -> e' = e) ->
  (exists ys, mapM f l = Ok ys) \/ mapM f l = Err e.
Proof.
  intros He. induction l as [|x l IH]; simpl; eauto.
  destruct (f x) as [y|e'] eqn:E; simpl.
  - destruct IH as [[ys ->]| ->]; simpl; eauto.
  - right. f_equal; eauto.
Qed.

Lemma getitem_err {V} (d : dict V) k e : getitem d k = Err e -> e = KeyError.
Proof. unfold getitem. destruct (dget k d); congruence. Qed.

Lemma map_df_columns_err df ms e : map_df_columns df ms = Err e -> e = KeyError.
Proof.
  unfold map_df_columns. intros H.
  set (fu := fun r => do u <- getitem (old2new (m_users ms)) (r_user r); Ok (set_user r u)) in H.
  destruct (mapM_cases fu df KeyError) as [[ys E]|E].
  { intros x e' Hx. unfold fu in Hx. destruct (getitem _ _) eqn:G; simpl in Hx; [discriminate|].
    inversion Hx; subst. eapply getitem_err; eauto. }
  - rewrite E in H. simpl in H.
    set (fi := fun r => do u <- getitem (old2new (m_items ms)) (r_item r); Ok (set_item r u)) in H.
    destruct (mapM_cases fi ys KeyError) as [[zs E']|E'].
    { intros x e' Hx. unfold fi in Hx. destruct (getitem _ _) eqn:G; simpl in Hx; [discriminate|].
      inversion Hx; subst. eapply getitem_err; eauto. }
    + congruence.
    + congruence.
  - rewrite E in H. simpl in H. congruence.
Qed.

Lemma map_df_columns_ok df ms df' :
  map_df_columns df ms = Ok df' ->
  Forall2 (fun r r' => f_of (m_users ms) (r_user r) = Some (r_user r')
                    /\ f_of (m_items ms) (r_item r) = Some (r_item r')
                    /\ r_ts r' = r_ts r /\ r_rel r' = r_rel r) df df'.
Proof.
  unfold map_df_columns. intros H.
  destruct (mapM _ df) as [df1|e] eqn:E; simpl in H; [|discriminate].
  apply user_pass_gen in E. apply item_pass_gen in H.
  eapply Forall2_trans_gen; [|exact E|exact H]. simpl.
  intros r r1 r2 [A1 A2] [C1 C2]. rewrite A2 in C1, C2. simpl in C1.
  rewrite C2. simpl. auto.
Qed.

Lemma map_df_columns_total df ms :
  (forall r, In r df -> f_of (m_users ms) (r_user r) <> None
                     /\ f_of (m_items ms) (r_item r) <> None) ->
  exists df', map_df_columns df ms = Ok df'.
Proof.
  intros H. unfold map_df_columns.
  destruct (mapM_total (fun r => do u <- getitem (old2new (m_users ms)) (r_user r); Ok (set_user r u)) df)
    as [df1 E].
  { intros r Hr. destruct (H r Hr) as [H1 _]. unfold getitem. unfold f_of in H1.
    destruct (dget _ _); [simpl; eauto|congruence]. }
  rewrite E. simpl. apply user_pass_gen in E.
  apply mapM_total. intros r Hr.
  assert (Hr' : exists r0, In r0 df /\ r_item r = r_item r0).
  { clear H. induction E as [|a b l l' Hab HF IH]; [destruct Hr|].
    destruct Hr as [->|Hr].
    - exists a. split; [left; auto|]. destruct Hab as [_ Hb]. rewrite Hb. reflexivity.
    - destruct IH as [r0 [? ?]]; auto. exists r0. split; [right|]; auto. }
  destruct Hr' as [r0 [Hin ->]]. destruct (H r0 Hin) as [_ H2].
  unfold getitem. unfold f_of in H2. destruct (dget _ _); [simpl; eauto|congruence].
Qed.

(** ** First occurrence masks *)

Fixpoint mfo (seen a : list Z) : list bool :=
  match a with
  | [] => []
  | x :: r => memZ x seen :: mfo (x :: seen) r
  end.

Lemma mfo_length seen a : length (mfo seen a) = length a.
Proof. revert seen; induction a; intros; simpl; auto. Qed.

Lemma mfo_ext s1 s2 a : (forall x, In x s1 <-> In x s2) -> mfo s1 a = mfo s2 a.
Proof.
  revert s1 s2; induction a as [|x a IH]; intros s1 s2 H; simpl; auto. f_equal.
  - destruct (memZ x s1) eqn:E1, (memZ x s2) eqn:E2; auto.
    + apply memZ_spec in E1. apply memZ_false in E2. exfalso; apply E2, H; auto.
    + apply memZ_spec in E2. apply memZ_false in E1. exfalso; apply E1, H; auto.
  - apply IH. intros y; simpl. rewrite H. tauto.
Qed.

Lemma mfo_nth seen a i x :
  nth_error a i = Some x ->
  nth_error (mfo seen a) i = Some (memZ x (seen ++ firstn i a)).
Proof.
  revert seen i; induction a as [|y a IH]; intros seen i H; [destruct i; discriminate|].
  destruct i as [|i]; simpl in *.
  - inversion H; subst. rewrite app_nil_r. reflexivity.
  - rewrite (IH (y :: seen) i H). f_equal.
    destruct (memZ x ((y :: seen) ++ firstn i a)) eqn:E1, (memZ x (seen ++ y :: firstn i a)) eqn:E2; auto.
    + apply memZ_spec in E1. apply memZ_false in E2. exfalso; apply E2.
      rewrite in_app_iff in *; simpl in *. intuition.
    + apply memZ_spec in E2. apply memZ_false in E1. exfalso; apply E1.
      rewrite in_app_iff in *; simpl in *. intuition.
Qed.

Lemma fold_set_nth_false idxs m i :
  nth_error (fold_left (fun m i => set_nth i false m) idxs m) i =
  if existsb (Nat.eqb i) idxs
  then (match nth_error m i with Some _ => Some false | None => None end)
  else nth_error m i.
Proof.
  revert m; induction idxs as [|j idxs IH]; intros m; simpl; auto.
  rewrite IH, nth_error_set_nth, (Nat.eqb_sym i j).
  destruct (Nat.eqb j i); simpl; auto.
  destruct (nth_error m i); destruct (existsb (Nat.eqb i) idxs); auto.
Qed.

Lemma fold_set_nth_length idxs (m : list bool) :
  length (fold_left (fun m i => set_nth i false m) idxs m) = length m.
Proof.
  revert m; induction idxs as [|j idxs IH]; intros m; simpl; auto.
  rewrite IH. apply set_nth_length.
Qed.

Lemma index_of_nth x a : In x a -> nth_error a (index_of x a) = Some x.
Proof.
  induction a as [|y a IH]; simpl; [tauto|]. intros H.
  destruct (x =? y) eqn:E; [apply Z.eqb_eq in E; subst; auto|].
  apply Z.eqb_neq in E. simpl. apply IH. destruct H; auto. congruence.
Qed.

Lemma index_of_notin x a : ~ In x (firstn (index_of x a) a).
Proof.
  induction a as [|y a IH]; simpl; auto.
  destruct (x =? y) eqn:E; simpl; auto. apply Z.eqb_neq in E. intuition.
Qed.

Lemma index_of_first x a i :
  nth_error a i = Some x -> ~ In x (firstn i a) -> index_of x a = i.
Proof.
  revert i; induction a as [|y a IH]; intros i H Hn; [destruct i; discriminate|].
  simpl. destruct i as [|i]; simpl in *.
  - inversion H; subst. rewrite Z.eqb_refl; auto.
  - replace (x =? y) with false by (symmetry; apply Z.eqb_neq; intuition).
    f_equal. apply IH; auto.
Qed.

Lemma nth_error_ext_bool (l1 l2 : list bool) :
  length l1 = length l2 ->
  (forall i, (i < length l1)%nat -> nth_error l1 i = nth_error l2 i) -> l1 = l2.
Proof.
  revert l2; induction l1 as [|x l1 IH]; intros [|y l2] Hlen H; simpl in *; try discriminate; auto.
  f_equal.
  - specialize (H 0%nat). simpl in H. assert (Some x = Some y) by (apply H; lia). congruence.
  - apply IH; [lia|]. intros i Hi. apply (H (S i)). lia.
Qed.

Lemma mask_first_occurence_mfo a : mask_first_occurence a = mfo [] a.
Proof.
  unfold mask_first_occurence.
  apply nth_error_ext_bool.
  - rewrite fold_set_nth_length, repeat_length, mfo_length. auto.
  - intros i Hi. rewrite fold_set_nth_length, repeat_length in Hi.
    rewrite fold_set_nth_false.
    destruct (nth_error a i) as [x|] eqn:E.
    2:{ apply nth_error_None in E. lia. }
    rewrite (mfo_nth [] a i x E). simpl.
    rewrite nth_error_repeat by auto.
    destruct (existsb (Nat.eqb i) (map (fun v => index_of v a) (np_unique a))) eqn:B.
    + apply existsb_exists in B as [j [Hj Hij]]. apply Nat.eqb_eq in Hij; subst j.
      apply in_map_iff in Hj as [v [Hv Hin]]. apply (proj1 (np_unique_In _ _)) in Hin.
      f_equal. symmetry. apply memZ_false.
      assert (v = x).
      { apply index_of_nth in Hin. rewrite Hv in Hin. congruence. }
      subst v. rewrite <- Hv. apply index_of_notin.
    + f_equal. symmetry. destruct (memZ x (firstn i a)) eqn:M; auto.
      apply memZ_false in M. exfalso.
      assert (existsb (Nat.eqb i) (map (fun v => index_of v a) (np_unique a)) = true); [|congruence].
      apply existsb_exists. exists i. split; [|apply Nat.eqb_refl].
      apply in_map_iff. exists x. split.
      * apply index_of_first; auto.
      * apply np_unique_In. eapply nth_error_In; eauto.
Qed.

Lemma select_mfo_first {R} (key : R -> Z) seen rows :
  FirstPerKey key seen rows (select (map negb (mfo seen (map key rows))) rows).
Proof.
  revert seen; induction rows as [|r rows IH]; intros seen; simpl.
  - constructor.
  - destruct (memZ (key r) seen) eqn:E; simpl.
    + apply memZ_spec in E. apply FPK_skip; auto.
      rewrite (mfo_ext (key r :: seen) seen); auto.
      intros x; simpl. split; [intros [<-|H]; auto|auto].
    + apply memZ_false in E. apply FPK_take; auto.
Qed.

Lemma known_mask df ms :
  (forall k v, f_of (m_users ms) k = Some v -> 0 <= v) ->
  (forall k v, f_of (m_items ms) k = Some v -> 0 <= v) ->
  get_known_ui_df_mask df ms = map (known ms) df.
Proof.
  intros Hu Hi. unfold get_known_ui_df_mask. apply map_ext. intros r.
  unfold known, get_or_pad, PAD_VALUE.
  fold (f_of (m_users ms) (r_user r)). fold (f_of (m_items ms) (r_item r)).
  destruct (f_of (m_users ms) (r_user r)) as [u|] eqn:Eu;
  destruct (f_of (m_items ms) (r_item r)) as [i|] eqn:Ei; simpl; auto.
  - apply Hu in Eu. apply Hi in Ei.
    replace (u =? -1) with false by (symmetry; apply Z.eqb_neq; lia).
    replace (i =? -1) with false by (symmetry; apply Z.eqb_neq; lia). reflexivity.
  - apply andb_false_r.
Qed.

Lemma test_selection df ms :
  (forall k v, f_of (m_users ms) k = Some v -> 0 <= v) ->
  (forall k v, f_of (m_items ms) k = Some v -> 0 <= v) ->
  exists sel,
    FirstPerKey r_user [] (filter (known ms) df) sel
    /\ get_users_to_recommend_test_items df ms = (map r_user sel, map r_item sel).
Proof.
  intros Hu Hi. unfold get_users_to_recommend_test_items. simpl.
  rewrite known_mask by auto. rewrite select_filter.
  set (kr := filter (known ms) df).
  exists (select (map negb (mfo [] (map r_user kr))) kr). split.
  - apply select_mfo_first.
  - rewrite map_map. simpl. rewrite mask_first_occurence_mfo.
    rewrite (select_map (fun r => (r_user r, r_item r))).
    rewrite !map_map. simpl. reflexivity.
Qed.

Lemma FirstPerKey_keys {R} (key : R -> Z) seen rows sel :
  FirstPerKey key seen rows sel ->
  NoDup (map key sel) /\ (forall k, In k (map key sel) <-> In k (map key rows) /\ ~ In k seen)
  /\ (forall r, In r sel -> In r rows).
Proof.
  induction 1 as [seen|seen r rows sel Hin H [IH1 [IH2 IH3]]|seen r rows sel Hin H [IH1 [IH2 IH3]]];
    simpl.
  - split; [constructor|]. split; [tauto|tauto].
  - split; auto. split; auto. intros k. rewrite IH2. split; [tauto|].
    intros [[<-|Hk] Hn]; tauto.
  - split.
    + constructor; auto. rewrite IH2. simpl. tauto.
    + split.
      * intros k. rewrite IH2. simpl. split.
        -- intros [<-|[H1 H2]]; tauto.
        -- intros [[<-|H1] H2]; auto.
           destruct (Z.eq_dec (key r) k); auto. right. split; auto. intuition.
      * intros x [->|Hx]; auto.
Qed.
