(** Proofs about the new-entities graph. *)
From Coq Require Import ZArith List Bool Lia Sorting.Permutation.
From Verif Require Import Prelude Prelude_proofs DataPrep_model DataPrep_spec DataPrep_proofs
  History_model Recommend_model Psi_model Psi_spec Psi_proofs Psi_main Tirec_model Tables_model Tables_spec.
Import ListNotations.
Open Scope Z_scope.

Lemma unique_filter (f : Z -> bool) l : unique (filter f l) = filter f (unique l).
Proof.
  induction l as [|x l IH]; auto. cbn. destruct (f x) eqn:E; cbn; rewrite IH.
  - f_equal. rewrite !filter_filter. apply filter_ext. intros y. apply andb_comm.
  - rewrite filter_filter. apply filter_ext_in. intros y _.
    destruct (y =? x) eqn:K; cbn; rewrite ?andb_false_r, ?andb_true_r; auto.
    apply Z.eqb_eq in K. subst y. rewrite E. reflexivity.
Qed.

Lemma map_filter_key {X} (key : X -> Z) (g : Z -> bool) l :
  map key (filter (fun r => g (key r)) l) = filter g (map key l).
Proof. induction l as [|x l IH]; auto. cbn. destruct (g (key x)); cbn; rewrite IH; reflexivity. Qed.

Definition same (a b : list Z) : Prop := forall x, memZ x a = memZ x b.

Lemma same_in a b : (forall x, In x a <-> In x b) -> same a b.
Proof. intros H x. apply eq_true_iff_eq. rewrite !memZ_spec. apply H. Qed.

Section Step.
  Variables (users items : list Z) (c : list row).
  Let nn := both_new users items c.

  (** Users of rows with a new item, and the others. *)
  Definition left_users : list Z := filter (fun u => negb (memZ u users) && negb (memZ u (map r_user nn))) (map r_user c).
  Definition left_items : list Z := filter (fun i => negb (memZ i items) && negb (memZ i (map r_item nn))) (map r_item c).

  Lemma memZ_app x a b : memZ x (a ++ b) = memZ x a || memZ x b.
  Proof. unfold memZ. apply existsb_app. Qed.
  Lemma memZ_unique x l : memZ x (unique l) = memZ x l.
  Proof. apply eq_true_iff_eq. rewrite !memZ_spec. apply unique_In. Qed.

  Lemma step_counts :
    exists us is,
      new_entities_step users items c
      = (us, is, mkNew (ndistinct left_users) (ndistinct left_items)
                       (ndistinct (map r_user nn)) (ndistinct (map r_item nn)))
      /\ same us (users ++ map r_user c) /\ same is (items ++ map r_item c).
  Proof.
    unfold new_entities_step. fold (both_new users items c). fold nn.
    eexists _, _. split; [|split].
    - f_equal. unfold left_users, left_items. rewrite <- !unique_length_ndistinct. rewrite !unique_filter.
      f_equal; f_equal; apply filter_ext; intros x; rewrite memZ_app, memZ_unique, negb_orb; reflexivity.
    - intros x. rewrite !memZ_app, memZ_unique.
      set (F := filter _ _). assert (HF : memZ x F = memZ x (map r_user c) && negb (memZ x users || memZ x (map r_user nn))).
      { apply eq_true_iff_eq. rewrite andb_true_iff, !memZ_spec. unfold F. rewrite filter_In, unique_In, memZ_app, memZ_unique.
        tauto. }
      rewrite HF. destruct (memZ x users); [reflexivity|]. cbn.
      destruct (memZ x (map r_user nn)) eqn:E; cbn; [|rewrite andb_true_r; reflexivity].
      symmetry. apply memZ_spec. apply memZ_spec in E. apply in_map_iff in E as [r [<- Hr]].
      apply filter_In in Hr as [Hr _]. apply in_map; auto.
    - intros x. rewrite !memZ_app, memZ_unique.
      set (F := filter _ _). assert (HF : memZ x F = memZ x (map r_item c) && negb (memZ x items || memZ x (map r_item nn))).
      { apply eq_true_iff_eq. rewrite andb_true_iff, !memZ_spec. unfold F. rewrite filter_In, unique_In, memZ_app, memZ_unique.
        tauto. }
      rewrite HF. destruct (memZ x items); [reflexivity|]. cbn.
      destruct (memZ x (map r_item nn)) eqn:E; cbn; [|rewrite andb_true_r; reflexivity].
      symmetry. apply memZ_spec. apply memZ_spec in E. apply in_map_iff in E as [r [<- Hr]].
      apply filter_In in Hr as [Hr _]. apply in_map; auto.
  Qed.

  Lemma split_count {X} (key : X -> Z) : forall (known first : list Z) l,
    (forall x, In x first -> In x l /\ memZ x known = false) ->
    (ndistinct (filter (fun u => negb (memZ u known) && negb (memZ u first)) l) + ndistinct first
     = ndistinct (first_seen known l))%nat.
  Proof.
    intros known first l H. rewrite <- !unique_length_ndistinct, <- app_length.
    apply Permutation_length. apply NoDup_Permutation.
    - apply NoDup_app_intro; try apply unique_NoDup. intros x Hx Hy.
      rewrite unique_In in Hx, Hy. apply filter_In in Hx as [_ Hx]. apply andb_true_iff in Hx as [_ Hx].
      apply negb_true_iff, memZ_false in Hx. auto.
    - apply unique_NoDup.
    - intros x. rewrite in_app_iff, !unique_In. unfold first_seen. rewrite !filter_In, andb_true_iff, !negb_true_iff.
      split.
      + intros [[A [B _]]|A]; [auto|apply H; auto].
      + intros [A B]. destruct (memZ x first) eqn:E; [right; apply memZ_spec; auto|left; auto].
  Qed.

  Lemma left_users_count : (ndistinct left_users + ndistinct (map r_user nn) = ndistinct (first_seen users (map r_user c)))%nat.
  Proof.
    apply (split_count r_user). intros x Hx. apply in_map_iff in Hx as [r [<- Hr]]. apply filter_In in Hr as [Hr E].
    apply andb_true_iff in E as [E _]. apply negb_true_iff in E. split; auto. apply in_map; auto.
  Qed.
  Lemma left_items_count : (ndistinct left_items + ndistinct (map r_item nn) = ndistinct (first_seen items (map r_item c)))%nat.
  Proof.
    apply (split_count r_item). intros x Hx. apply in_map_iff in Hx as [r [<- Hr]]. apply filter_In in Hr as [Hr E].
    apply andb_true_iff in E as [_ E]. apply negb_true_iff in E. split; auto. apply in_map; auto.
  Qed.
End Step.

Lemma same_app a a' b : same a a' -> same (a ++ b) (a' ++ b).
Proof. intros H x. rewrite !memZ_app, H. reflexivity. Qed.

Lemma both_new_same u u' i i' c : same u u' -> same i i' -> both_new u i c = both_new u' i' c.
Proof. intros H G. apply filter_ext. intros r. rewrite H, G. reflexivity. Qed.

Lemma dynamics_same chunks : forall u u' i i', same u u' -> same i i' ->
  new_entities_dynamics u i chunks = new_entities_dynamics u' i' chunks.
Proof.
  induction chunks as [|c chunks IH]; intros u u' i i' H G; auto. cbn [new_entities_dynamics].
  destruct (step_counts u i c) as [us [is [-> [S1 S2]]]].
  destruct (step_counts u' i' c) as [us' [is' [-> [S1' S2']]]].
  assert (E : both_new u i c = both_new u' i' c) by (apply both_new_same; auto).
  f_equal.
  - unfold left_users, left_items. rewrite !E. f_equal; f_equal; apply filter_ext; intros x; rewrite ?H, ?G; reflexivity.
  - apply IH; intros x; rewrite ?S1, ?S1', ?S2, ?S2'; apply same_app; auto.
Qed.

Lemma same_sym a b : same a b -> same b a.
Proof. intros H x. symmetry. apply H. Qed.

Lemma dynamics_nth pre : forall users items c post,
  let U := users ++ map r_user (concat pre) in
  let I := items ++ map r_item (concat pre) in
  nth_error (new_entities_dynamics users items (pre ++ c :: post)) (length pre)
  = Some (mkNew (ndistinct (left_users U I c)) (ndistinct (left_items U I c))
                (ndistinct (map r_user (both_new U I c))) (ndistinct (map r_item (both_new U I c)))).
Proof.
  induction pre as [|p pre IH]; intros users items c post; cbn [new_entities_dynamics app concat length nth_error map].
  - rewrite !app_nil_r. destruct (step_counts users items c) as [us [is [-> _]]]. reflexivity.
  - destruct (step_counts users items p) as [us [is [-> [S1 S2]]]]. cbn [nth_error].
    rewrite (dynamics_same _ us (users ++ map r_user p) is (items ++ map r_item p)) by auto.
    rewrite IH. rewrite !map_app, !app_assoc. reflexivity.
Qed.

Lemma dynamics_length chunks : forall u i, length (new_entities_dynamics u i chunks) = length chunks.
Proof.
  induction chunks as [|c chunks IH]; intros u i; auto. cbn [new_entities_dynamics].
  destruct (new_entities_step u i c) as [[us is] n]. cbn. rewrite IH. reflexivity.
Qed.

(** Counts in terms of the ids. *)
Lemma graph_counts_main initial pre c post :
  let users := map r_user (initial ++ concat pre) in
  let items := map r_item (initial ++ concat pre) in
  let series := new_entities_dynamics (unique (map r_user initial)) (unique (map r_item initial)) (pre ++ c :: post) in
  exists n, nth_error series (length pre) = Some n
    /\ nc_users_ni n = ndistinct (map r_user (both_new users items c))
    /\ nc_items_nu n = ndistinct (map r_item (both_new users items c))
    /\ (nc_users n + nc_users_ni n = ndistinct (first_seen users (map r_user c)))%nat
    /\ (nc_items n + nc_items_nu n = ndistinct (first_seen items (map r_item c)))%nat.
Proof.
  intros users items series. subst series.
  rewrite (dynamics_same _ _ (map r_user initial) _ (map r_item initial)) by (intros x; apply memZ_unique).
  rewrite dynamics_nth. eexists. split; [reflexivity|]. cbn [nc_users nc_items nc_users_ni nc_items_nu].
  subst users items. rewrite !map_app. split; [reflexivity|]. split; [reflexivity|].
  split; [apply left_users_count|apply left_items_count].
Qed.

(** The graph and the steps of PSI. *)
Lemma stream_split cfg pre : forall st post st', psi_stream cfg st (pre ++ post) = Ok st' ->
  exists s, psi_stream cfg st pre = Ok s /\ psi_stream cfg s post = Ok st'.
Proof.
  intros st post st'. unfold psi_stream. rewrite fold_left_app. intros H.
  destruct (fold_left _ pre _) as [s|e] eqn:E; [eauto|]. exfalso. clear E.
  assert (N : fold_left (fun acc c => do s <- acc; psi_update cfg s c) post (Err e) = Err e).
  { induction post; auto. }
  rewrite N in H. discriminate.
Qed.

Lemma unknown_mem_u st all r : inv st all -> unknown_user st r = negb (memZ (r_user r) (map r_user all)).
Proof.
  intros [_ [_ [_ [KU _]]]]. unfold unknown_user. destruct (fu st (r_user r)) eqn:E.
  - symmetry. apply negb_false_iff, memZ_spec, KU. congruence.
  - symmetry. apply negb_true_iff, memZ_false. rewrite <- KU. congruence.
Qed.
Lemma unknown_mem_i st all r : inv st all -> unknown_item st r = negb (memZ (r_item r) (map r_item all)).
Proof.
  intros [_ [_ [_ [_ [KI _]]]]]. unfold unknown_item. destruct (fi st (r_item r)) eqn:E.
  - symmetry. apply negb_false_iff, memZ_spec, KI. congruence.
  - symmetry. apply negb_true_iff, memZ_false. rewrite <- KI. congruence.
Qed.

Lemma step_ids_view key md l steps :
  map (fun s => (sl_mode s, sl_data s)) l = steps ->
  step_ids key md l = ndistinct (map key (concat (map snd (filter (fun s => mode_eqb (fst s) md) steps)))).
Proof.
  intros <-. unfold step_ids. do 3 f_equal. induction l as [|s l IH]; auto. cbn.
  destruct (mode_eqb (sl_mode s) md); cbn; rewrite IH; reflexivity.
Qed.

Lemma expected_new cfg st c :
  concat (map snd (filter (fun s => mode_eqb (fst s) MNew) (expected_steps cfg st c))) = part_new st c
  /\ concat (map snd (filter (fun s => mode_eqb (fst s) MNewUsers) (expected_steps cfg st c))) = part_new_users st c
  /\ concat (map snd (filter (fun s => mode_eqb (fst s) MNewItems) (expected_steps cfg st c))) = part_new_items st c.
Proof.
  unfold expected_steps. set (o := match cf_init cfg with INone => _ | _ => _ end). clearbody o.
  destruct (part_new st c), (part_new_users st c), (part_new_items st c), o; cbn; rewrite ?app_nil_r; auto.
Qed.

Lemma graph_psi_main rank initial cfg pre c post st0 st :
  svd_train rank initial = Ok st0 -> psi_stream cfg st0 (pre ++ c :: post) = Ok st ->
  let series := new_entities_dynamics (unique (map r_user initial)) (unique (map r_item initial)) (pre ++ c :: post) in
  exists n s s' l,
    nth_error series (length pre) = Some n
    /\ psi_stream cfg st0 pre = Ok s /\ psi_update cfg s c = Ok s' /\ ps_log s' = ps_log s ++ l
    /\ ps_n_users s' = ps_n_users s + Z.of_nat (nc_users_ni n + nc_users n)
    /\ ps_n_items s' = ps_n_items s + Z.of_nat (nc_items_nu n + nc_items n)
    /\ step_ids r_user MNew l = nc_users_ni n /\ step_ids r_item MNew l = nc_items_nu n
    /\ step_ids r_user MNewUsers l = nc_users n /\ step_ids r_item MNewItems l = nc_items n.
Proof.
  intros T R series. subst series.
  rewrite (dynamics_same _ _ (map r_user initial) _ (map r_item initial)) by (intros x; apply memZ_unique).
  rewrite dynamics_nth. destruct (stream_split cfg pre st0 (c :: post) st R) as [s [Hs Hp]].
  assert (I := stream_inv cfg pre st0 initial s (train_inv _ _ _ T) Hs).
  unfold psi_stream in Hp. cbn in Hp.
  destruct (psi_update cfg s c) as [s'|e] eqn:E.
  2:{ exfalso. assert (N : fold_left (fun acc c => do s <- acc; psi_update cfg s c) post (Err e) = Err e)
        by (clear; induction post; auto). rewrite N in Hp. discriminate. }
  assert (G := psi_update_good cfg s c s' (proj1 I) E).
  destruct G as [_ [_ [NU [NI [_ [[l [EL [V _]]] _]]]]]].
  set (U := map r_user initial ++ map r_user (concat pre)).
  set (J := map r_item initial ++ map r_item (concat pre)).
  assert (PN : part_new s c = both_new U J c).
  { unfold part_new, both_new. apply filter_ext. intros r.
    rewrite (unknown_mem_u _ _ r I), (unknown_mem_i _ _ r I), !map_app. reflexivity. }
  assert (PU : map r_user (part_new_users s c) = left_users U J c).
  { unfold part_new_users, left_users. rewrite PN.
    rewrite <- (map_filter_key r_user). f_equal. apply filter_ext. intros r.
    rewrite (unknown_mem_u _ _ r I), !map_app. reflexivity. }
  assert (PI : map r_item (part_new_items s c) = left_items U J c).
  { unfold part_new_items, left_items. rewrite PN.
    rewrite <- (map_filter_key r_item). f_equal. apply filter_ext. intros r.
    rewrite (unknown_mem_i _ _ r I), !map_app. reflexivity. }
  destruct (expected_new cfg s c) as [E1 [E2 E3]].
  eexists _, s, s', l. split; [reflexivity|]. cbn [nc_users nc_items nc_users_ni nc_items_nu].
  split; [exact Hs|]. split; [exact E|]. split; [exact EL|].
  rewrite !count_u_ndistinct in NU. rewrite !count_i_ndistinct in NI.
  rewrite !(step_ids_view _ _ l _ V), E1, E2, E3. fold U J. rewrite <- PU, <- PI, <- PN.
  split; [lia|]. split; [lia|]. auto.
Qed.

Lemma plot_length_main n initial chunks :
  ((n <= length chunks)%nat ->
     plot_new_entities n initial chunks
     = Ok (firstn n (new_entities_dynamics (unique (map r_user initial)) (unique (map r_item initial)) chunks)))
  /\ ((length chunks < n)%nat -> plot_new_entities n initial chunks = Err ValueError).
Proof.
  unfold plot_new_entities. rewrite firstn_length, dynamics_length. split; intros H.
  - rewrite Nat.min_l by lia. rewrite Nat.eqb_refl. reflexivity.
  - rewrite Nat.min_r by lia. destruct (Nat.eqb_spec (length chunks) n); [lia|reflexivity].
Qed.

Lemma graph_tirec_refuted_main :
  exists (L : nat) rank initial chunk kept st st',
    get_df_with_cropped_pos_column initial L true = Ok kept
    /\ tdrec_train L rank kept [] = Ok st /\ ti_update VTIRec L st chunk true = Ok st'
    /\ plot_new_entities 1 initial [chunk] = Ok [mkNew 0 0 0 0]
    /\ length (ti_irows st') = S (length (ti_irows st)).
Proof.
  exists 2%nat, (1, 1, 1),
    [mkRow 5 10 1 1; mkRow 5 20 2 1; mkRow 5 30 3 1; mkRow 6 20 4 1; mkRow 6 30 5 1], [mkRow 6 10 6 1].
  eexists _, _, _.
  split; [vm_compute; reflexivity|]. split; [vm_compute; reflexivity|]. split; [vm_compute; reflexivity|].
  split; vm_compute; reflexivity.
Qed.
