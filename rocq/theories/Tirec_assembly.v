(** Final lemmas for the sequential models. *)
From Coq Require Import ZArith List Bool Lia Permutation Sorted.
From Verif Require Import Prelude Prelude_proofs DataPrep_model DataPrep_spec DataPrep_proofs DataPrep_main
  History_model History_spec History_proofs History_main Recommend_model Recommend_spec Recommend_main Psi_model Psi_main
  Tirec_model Tirec_spec Tirec_proofs Tirec_main.
Import ListNotations.
Open Scope Z_scope.

Lemma ti_update_ok v L st data s st' :
  ti_wf L st -> ti_update v L st data s = Ok st' ->
  exists chunk0 chunk ms' ku ki,
    preprocessed L (ti_maps st) data s chunk0 chunk ms' ku ki
    /\ ti_delta st st' = snd (get_train_tensor L (ti_seq st) (map triple_of chunk))
    /\ ti_delta st st' <> []
    /\ ti_fits v L (nusers st) (nitems st) (ti_delta st st')
    /\ good_ti v L st chunk ms' ku ki st'.
Proof.
  intros W H.
  assert (HL : (1 <= L)%nat /\ data <> []).
  { unfold ti_update in H. unfold preprocess_raw_input_data in H.
    destruct (get_df_with_cropped_pos_column data L s) as [c|] eqn:E; [|discriminate].
    apply crop_ok_hyps in E. exact E. }
  destruct (preprocess_spec L (ti_maps st) data s (proj1 W) (proj1 (proj2 W)) (proj1 HL) (proj2 HL))
    as [chunk0 [chunk [ms' [ku [ki P]]]]].
  exists chunk0, chunk, ms', ku, ki. split; auto.
  pose proof (ti_update_empty v L st data s W _ _ _ _ _ P) as EE.
  pose proof (ti_update_cases v L st data s W _ _ _ _ _ P) as EC.
  assert (NE : snd (get_train_tensor L (ti_seq st) (map triple_of chunk)) <> []).
  { intros E. rewrite (EE E) in H. discriminate. }
  specialize (EC NE).
  destruct (tfit2 v L st chunk && tfit3 v L st chunk ku) eqn:F.
  2:{ rewrite EC in H; discriminate. }
  destruct EC as [st'' [E G]]. assert (st'' = st') by congruence. subst st''.
  rewrite (good_delta v L st chunk ms' ku ki st' G).
  split; [reflexivity|]. split; auto. split; auto.
  apply (tfits_iff v L st data s W _ _ _ _ _ P). exact F.
Qed.

Lemma applied_view v l :
  applied v l = concat (map snd (filter (fun x => ti_uses_values v (fst x)) (ti_view l))).
Proof.
  unfold applied, ti_view. induction l as [|a l IH]; simpl; auto.
  destruct (ti_uses_values v (ts_mode a)); simpl; congruence.
Qed.
Lemma concat_nonempty l :
  concat (map snd (filter nonempty_step l)) = concat (map snd l).
Proof. induction l as [|[m d] l IH]; simpl; auto. destruct d; simpl; congruence. Qed.
Lemma filter_swap {X} (f g : X -> bool) l : filter f (filter g l) = filter g (filter f l).
Proof.
  induction l as [|a l IH]; simpl; auto.
  destruct (f a) eqn:F, (g a) eqn:G; simpl; rewrite ?F, ?G; congruence.
Qed.

Lemma applied_VTIRec nu ni D l :
  ti_view l = ti_expected VTIRec nu ni D ->
  applied VTIRec l = q_new nu ni D ++ q_new_users nu ni D ++ q_new_items nu ni D ++ q_old nu ni D.
Proof.
  intros H. rewrite applied_view, H. unfold ti_expected. rewrite filter_swap, concat_nonempty.
  simpl. rewrite app_nil_r. reflexivity.
Qed.
Lemma applied_VTIRecA nu ni D l :
  ti_view l = ti_expected VTIRecA nu ni D -> applied VTIRecA l = q_new nu ni D ++ D.
Proof.
  intros H. rewrite applied_view, H. unfold ti_expected. rewrite filter_swap, concat_nonempty.
  simpl. rewrite app_nil_r. reflexivity.
Qed.
Lemma applied_VTIRecAInt nu ni D l :
  ti_view l = ti_expected VTIRecAInt nu ni D -> applied VTIRecAInt l = D.
Proof.
  intros H. rewrite applied_view, H. unfold ti_expected. rewrite filter_swap, concat_nonempty.
  simpl. rewrite app_nil_r. reflexivity.
Qed.

Lemma q_partition nu ni D :
  Permutation (q_new nu ni D ++ q_new_users nu ni D ++ q_new_items nu ni D ++ q_old nu ni D) D.
Proof.
  assert (M : forall e, In e D -> new_u nu e && new_i ni e = true ->
     memZ (e_user e) (map e_user (q_new nu ni D)) = true
     /\ memZ (e_item e) (map e_item (q_new nu ni D)) = true).
  { intros e He E. assert (In e (q_new nu ni D)) by (apply filter_In; auto).
    split; apply memZ_spec, in_map; auto. }
  apply filter_partition4.
  - intros e He E. destruct (M e He E) as [-> _]. apply andb_false_r.
  - intros e He E. destruct (M e He E) as [_ ->]. apply andb_false_r.
  - intros e He E. apply andb_true_iff in E as [E1 E2].
    destruct (new_i ni e) eqn:E3; auto. destruct (M e He) as [M1 _]; [rewrite E1, E3; reflexivity|].
    rewrite M1 in E2. discriminate.
Qed.

Lemma tirec_partition_main : forall v L st data s st',
  ti_wf L st -> ti_update v L st data s = Ok st' ->
  let D := ti_delta st st' in
  ti_wf L st'
  /\ exists l, ti_log st' = ti_log st ++ l
     /\ map (fun x => (ts_mode x, ts_entries x)) l = ti_expected v (nusers st) (nitems st) D
     /\ (v <> VTIRecA -> Permutation (applied v l) D).
Proof.
  intros v L st data s st' W H D.
  destruct (ti_update_ok v L st data s st' W H) as [chunk0 [chunk [ms' [ku [ki [P [E [NE [F G]]]]]]]]].
  split; [eapply good_wf; eauto|].
  destruct G as [_ [_ [_ [_ [_ [l [EL [V R]]]]]]]]. exists l. rewrite <- E in V. fold D in V.
  split; auto. split; [exact V|]. intros N. destruct v.
  - rewrite (applied_VTIRec _ _ _ _ V). apply q_partition.
  - congruence.
  - rewrite (applied_VTIRecAInt _ _ _ _ V). apply Permutation_refl.
Qed.

Lemma tirec_outcome_main : forall v L st data s,
  ti_wf L st ->
  (data = [] -> ti_update v L st data s = Err KeyError)
  /\ (data <> [] -> L = 0%nat -> ti_update v L st data s = Err ValueError)
  /\ (data <> [] -> (1 <= L)%nat ->
      exists ms' chunk nu' ni',
        preprocess_raw_input_data L (ti_maps st) data s = Ok (ms', chunk, nu', ni')
        /\ let D := calculate_delta
                      (hist_lists (update_user_seq_history (map triple_of chunk) (ti_seq st) L))
                      (hist_lists (ti_seq st)) in
           ((exists st', ti_update v L st data s = Ok st')
              <-> D <> [] /\ ti_fits v L (nusers st) (nitems st) D)
           /\ forall e, ti_update v L st data s = Err e -> e = ValueError).
Proof.
  intros v L st data s W. split; [|split].
  - intros ->. destruct s; reflexivity.
  - intros NE ->. unfold ti_update, preprocess_raw_input_data. rewrite crop_zero by auto. reflexivity.
  - intros NE HL.
    destruct (preprocess_spec L (ti_maps st) data s (proj1 W) (proj1 (proj2 W)) HL NE)
      as [chunk0 [chunk [ms' [ku [ki P]]]]].
    exists ms', chunk, (seqZ (n_indices (m_users (ti_maps st))) ku), (seqZ (n_indices (m_items (ti_maps st))) ki).
    split; [apply P|]. intros D.
    pose proof (ti_update_empty v L st data s W _ _ _ _ _ P) as EE.
    pose proof (ti_update_cases v L st data s W _ _ _ _ _ P) as EC.
    pose proof (tfits_iff v L st data s W _ _ _ _ _ P) as EF.
    change (snd (get_train_tensor L (ti_seq st) (map triple_of chunk))) with D in *.
    destruct D as [|e0 D0] eqn:ED.
    + rewrite (EE eq_refl). split; [|intros; congruence]. split; [intros [? ?]; discriminate|tauto].
    + rewrite <- ED in *. assert (ND : D <> []) by congruence. specialize (EC ND).
      destruct (tfit2 v L st chunk && tfit3 v L st chunk ku).
      * destruct EC as [st' [E _]]. split; [|intros; congruence]. split; [|eauto].
        intros _. split; auto. apply EF; auto.
      * rewrite EC. split; [|intros; congruence]. split; [intros [? ?]; discriminate|].
        intros [_ F]. apply EF in F. discriminate.
Qed.

(** ** TIRecA: double application *)
Lemma cell_sub nu ni D c : NoDup (map fst D) -> cell c (q_new nu ni D) <> 0 -> exists v, In (c, v) (q_new nu ni D).
Proof. intros _. apply cell_In. Qed.

Lemma NoDup_map_filter {X Y} (f : X -> Y) (p : X -> bool) l : NoDup (map f l) -> NoDup (map f (filter p l)).
Proof.
  induction l as [|a l IH]; simpl; auto. intros H. inversion H as [|? ? N1 N2]; subst.
  destruct (p a); simpl; auto. constructor; auto. intros Hin. apply N1.
  apply in_map_iff in Hin as [x [<- Hx]]. apply filter_In in Hx as [Hx _]. apply in_map; auto.
Qed.

Lemma tireca_twice_main : forall L st data s st',
  ti_wf L st -> ti_update VTIRecA L st data s = Ok st' ->
  let D := ti_delta st st' in
  let N := q_new (nusers st) (nitems st) D in
  exists l, ti_log st' = ti_log st ++ l
    /\ Permutation (applied VTIRecA l) (D ++ N)
    /\ (forall c, cell c (applied VTIRecA l) = cell c D + cell c N)
    /\ (forall e, In e N -> snd e <> 0 /\ cell (fst e) D = snd e
                            /\ cell (fst e) (applied VTIRecA l) = 2 * snd e)
    /\ ((forall c, cell c (applied VTIRecA l) = cell c D) <-> N = []).
Proof.
  intros L st data s st' W H D N.
  destruct (ti_update_ok _ L st data s st' W H) as [chunk0 [chunk [ms' [ku [ki [P [E [NE [F G]]]]]]]]].
  destruct G as [_ [_ [_ [_ [_ [l [EL [V R]]]]]]]]. rewrite <- E in V. fold D in V.
  apply applied_VTIRecA in V. fold N in V. exists l. split; auto. rewrite V.
  assert (ND : NoDup (map fst D)).
  { unfold D. rewrite E. apply D_NoDup. eapply wfh; eauto. }
  assert (NN : NoDup (map fst N)) by (apply NoDup_map_filter; auto).
  assert (C : forall c, cell c (N ++ D) = cell c D + cell c N) by (intros; rewrite cell_app; lia).
  assert (X : forall e, In e N -> snd e <> 0 /\ cell (fst e) D = snd e /\ cell (fst e) N = snd e).
  { intros [c x] He. assert (HD : In (c, x) D) by (apply filter_In in He; tauto). cbn [fst snd].
    split; [|split; apply cell_NoDup; auto].
    pose proof HD as HD'. unfold D in HD'. rewrite E in HD'.
    apply calculate_delta_vals in HD'. lia. }
  split; [apply Permutation_app_comm|]. split; auto. split.
  - intros e He. destruct (X e He) as [X1 [X2 X3]]. rewrite C. lia.
  - split.
    + intros HA. destruct N as [|e N0] eqn:EN; auto. exfalso.
      destruct (X e (or_introl eq_refl)) as [X1 [X2 X3]]. specialize (HA (fst e)). rewrite C in HA. lia.
    + intros EN c. rewrite EN. reflexivity.
Qed.

(** ** Row order *)
Lemma app_inj_len {X} (a b c d : list X) : length a = length c -> a ++ b = c ++ d -> a = c /\ b = d.
Proof.
  revert c. induction a as [|x a IH]; intros [|y c] HL H; simpl in *; try discriminate; auto.
  injection H as -> H. destruct (IH c) as [-> ->]; auto.
Qed.

Lemma zrange_ext (rows X : list Z) :
  rows ++ X = zrange (length (rows ++ X))
  <-> rows = zrange (length rows) /\ X = seqZ (Z.of_nat (length rows)) (length X).
Proof.
  rewrite app_length, zrange_app. split.
  - intros H. apply app_inj_len in H; auto. rewrite zrange_length. reflexivity.
  - intros [<- <-]. reflexivity.
Qed.

Lemma tirec_row_order_main : forall v L st data s st',
  ti_wf L st -> ti_update v L st data s = Ok st' ->
  let D := ti_delta st st' in
  let N := q_new (nusers st) (nitems st) D in
  let U1 := map e_user N in let U2 := map e_user (q_new_users (nusers st) (nitems st) D) in
  let I1 := map e_item N in let I2 := map e_item (q_new_items (nusers st) (nitems st) D) in
  (v <> VTIRecAInt ->
     (exists a b, ti_urows st' = ti_urows st ++ a ++ b
        /\ StronglySorted Z.lt a /\ StronglySorted Z.lt b
        /\ (forall x, In x a <-> In x U1) /\ (forall x, In x b <-> In x U2))
     /\ (exists a b, ti_irows st' = ti_irows st ++ a ++ b
        /\ StronglySorted Z.lt a /\ StronglySorted Z.lt b
        /\ (forall x, In x a <-> In x I1) /\ (forall x, In x b <-> In x I2)))
  /\ (rows_aligned st' <->
        rows_aligned st
        /\ (v <> VTIRecAInt ->
              first_kind_first (nusers st) U1 (map e_user D)
              /\ first_kind_first (nitems st) I1 (map e_item D))).
Proof.
  intros v L st data s st' W H D N U1 U2 I1 I2.
  destruct (ti_update_ok v L st data s st' W H) as [chunk0 [chunk [ms' [ku [ki [P [E [NE [F G]]]]]]]]].
  pose proof (new_U_len v L st data s W _ _ _ _ _ P) as LU.
  pose proof (new_I_len v L st data s W _ _ _ _ _ P) as LI.
  pose proof (new_U_perm v L st data s W _ _ _ _ _ P) as PU.
  pose proof (new_I_perm v L st data s W _ _ _ _ _ P) as PI.
  assert (HU2 : forall x, In x U2 -> In x (map e_user D) /\ nusers st <= x /\ ~ In x U1).
  { intros x Hx. unfold U2, D in Hx. rewrite E in Hx. apply Q2_user in Hx.
    rewrite <- E in Hx. exact Hx. }
  assert (HU2' : forall x, In x (map e_user D) -> nusers st <= x -> ~ In x U1 -> In x U2).
  { intros x. unfold U1, U2, N, D. rewrite E. apply new_user_cases. }
  assert (HI2 : forall x, In x I2 -> In x (map e_item D) /\ nitems st <= x /\ ~ In x I1).
  { intros x Hx. unfold I2, D in Hx. rewrite E in Hx. apply Q3_item in Hx.
    rewrite <- E in Hx. exact Hx. }
  assert (HI2' : forall x, In x (map e_item D) -> nitems st <= x -> ~ In x I1 -> In x I2).
  { intros x. unfold I1, I2, N, D. rewrite E. apply new_item_cases. }
  assert (EU : v <> VTIRecAInt -> new_U v L st chunk ku = np_unique U1 ++ np_unique U2).
  { intros Nv. unfold new_U, U1, U2, N, D. rewrite E. destruct v; congruence. }
  assert (EI : v <> VTIRecAInt -> new_I v L st chunk ki = np_unique I1 ++ np_unique I2).
  { intros Nv. unfold new_I, I1, I2, N, D. rewrite E. destruct v; congruence. }
  destruct G as [_ [GU [GI _]]].
  assert (AU : ti_urows st' = zrange (length (ti_urows st')) <->
     ti_urows st = zrange (length (ti_urows st)) /\ (v <> VTIRecAInt -> first_kind_first (nusers st) U1 (map e_user D))).
  { rewrite GU, zrange_ext, LU. destruct (variant_cases v) as [Ev|[Ev|Ev]].
    3:{ unfold new_U. rewrite Ev. intuition congruence. }
    all: rewrite EU in PU |- * by congruence;
      pose proof (sorted_new_iff U1 U2 (map e_user D) (nusers st) ku PU HU2) as K;
      fold (nusers st); rewrite K; intuition congruence. }
  assert (AI : ti_irows st' = zrange (length (ti_irows st')) <->
     ti_irows st = zrange (length (ti_irows st)) /\ (v <> VTIRecAInt -> first_kind_first (nitems st) I1 (map e_item D))).
  { rewrite GI, zrange_ext, LI. destruct (variant_cases v) as [Ev|[Ev|Ev]].
    3:{ unfold new_I. rewrite Ev. intuition congruence. }
    all: rewrite EI in PI |- * by congruence;
      pose proof (sorted_new_iff I1 I2 (map e_item D) (nitems st) ki PI HI2) as K;
      fold (nitems st); rewrite K; intuition congruence. }
  split.
  - intros Nv. split.
    + exists (np_unique U1), (np_unique U2). rewrite GU, EU by auto. split; auto.
      repeat split; try apply np_unique_lt; apply np_unique_In.
    + exists (np_unique I1), (np_unique I2). rewrite GI, EI by auto. split; auto.
      repeat split; try apply np_unique_lt; apply np_unique_In.
  - unfold rows_aligned. rewrite AU, AI. tauto.
Qed.

Lemma nth_error_zrange n i : (i < n)%nat -> nth_error (zrange n) i = Some (Z.of_nat i).
Proof.
  intros H. unfold zrange. rewrite nth_error_map.
  rewrite (nth_error_nth' _ 0%nat) by (rewrite seq_length; auto). rewrite seq_nth by auto. reflexivity.
Qed.

(** Where the entries of the steps land. *)
Lemma tirec_lands_main : forall v L st data s st',
  ti_wf L st -> ti_update v L st data s = Ok st' ->
  exists l, ti_log st' = ti_log st ++ l
    /\ forall x, In x l -> (rows_aligned st /\ ts_mode x <> MOld \/ rows_aligned st') ->
       Forall2 (own_rows st' x) (ts_entries x) (ts_local x).
Proof.
  intros v L st data s st' W H.
  pose proof (proj2 (tirec_row_order_main v L st data s st' W H)) as RA. cbv zeta in RA.
  destruct (ti_update_ok v L st data s st' W H) as [chunk0 [chunk [ms' [ku [ki [P [E [NE [F G]]]]]]]]].
  pose proof (good_wf v L st data s W _ _ _ _ _ P _ G) as W'.
  destruct G as [_ [GU [GI [_ [_ [l [EL [V R]]]]]]]]. exists l. split; auto.
  intros x Hx A.
  assert (AL : rows_aligned st) by tauto.
  rewrite Forall_forall in R. destruct (R x Hx) as [R1 [R2 R3]].
  (* entries of the step come from the delta *)
  assert (HD : forall e, In e (ts_entries x) -> In e (ti_delta st st')
     /\ (ts_mode x = MNewUsers -> 0 <= e_item e < nitems st)
     /\ (ts_mode x = MNewItems -> 0 <= e_user e < nusers st)).
  { intros e He. assert (Hv : In (ts_mode x, ts_entries x) (ti_view l)).
    { unfold ti_view. apply in_map_iff. exists x. auto. }
    rewrite V in Hv. unfold ti_expected in Hv. apply filter_In in Hv as [Hv _]. rewrite E.
    destruct v; simpl in Hv; repeat (destruct Hv as [Hv|Hv]); try (exfalso; exact Hv);
      injection Hv as Hm He'; rewrite <- He' in He; rewrite <- Hm;
      (split; [try (apply filter_In in He); tauto|]); (split; intros; try discriminate);
      solve [eapply Q2_items; eauto | eapply Q3_users; eauto]. }
  destruct AL as [AU AI].
  assert (AU0 : forall i, 0 <= i < nusers st -> nth_error (ti_urows st') (Z.to_nat i) = Some i).
  { intros i Hi. unfold nusers in Hi. rewrite GU, nth_error_app1 by lia. rewrite AU, nth_error_zrange by lia.
    f_equal. lia. }
  assert (AI0 : forall i, 0 <= i < nitems st -> nth_error (ti_irows st') (Z.to_nat i) = Some i).
  { intros i Hi. unfold nitems in Hi. rewrite GI, nth_error_app1 by lia. rewrite AI, nth_error_zrange by lia.
    f_equal. lia. }
  assert (Hrange : forall e, In e (ti_delta st st') -> 0 <= e_user e < nusers st' /\ 0 <= e_item e < nitems st').
  { intros e He. rewrite E in He. pose proof (D_range L st data s W _ _ _ _ _ P e He) as [D1 [D2 _]].
    unfold nusers, nitems. rewrite GU, GI, !app_length.
    rewrite (new_U_len v L st data s W _ _ _ _ _ P), (new_I_len v L st data s W _ _ _ _ _ P).
    unfold nusers, nitems in D1, D2. lia. }
  assert (AO : ts_mode x = MOld -> forall e, In e (ti_delta st st') ->
     nth_error (ti_urows st') (Z.to_nat (e_user e)) = Some (e_user e)
     /\ nth_error (ti_irows st') (Z.to_nat (e_item e)) = Some (e_item e)).
  { intros Hm e He. destruct A as [[_ A]|[A1 A2]]; [congruence|].
    destruct (Hrange e He) as [B1 B2]. unfold nusers in B1. unfold nitems in B2.
    rewrite A1, A2, !nth_error_zrange by lia. rewrite !Z2Nat.id by lia. auto. }
  revert HD AO R3. generalize (ts_entries x) (ts_local x). intros es ls HD AO R3.
  induction R3 as [|e lc es ls Hel R3 IH]; constructor.
  2:{ apply IH. intros; apply HD; right; auto. }
  destruct (HD e (or_introl eq_refl)) as [D1 [D2 D3]]. destruct (Hrange e D1) as [B1 B2].
  clear IH. unfold own_rows, target. unfold loc_rel in Hel.
  destruct (ts_mode x); cbn [fst snd].
  - destruct Hel as [[H1 H2] [H3 H4]]. repeat split; auto; lia.
  - destruct Hel as [[H1 H2] H3]. rewrite H3. specialize (D2 eq_refl). repeat split; auto; try lia.
  - destruct Hel as [H3 [H1 H2]]. rewrite H3. specialize (D3 eq_refl). repeat split; auto; try lia.
  - destruct Hel as [H1 H2]. rewrite H1, H2. destruct (AO eq_refl e D1). repeat split; auto; lia.
Qed.

Lemma stream_err {X} (f : ti_state -> X -> res ti_state) chunks e :
  fold_left (fun acc c => do st <- acc; f st c) chunks (Err e) = Err e.
Proof. induction chunks; simpl; auto. Qed.

Lemma tireca_int_stream_aligned_main : forall L s chunks st st',
  ti_wf L st -> rows_aligned st -> ti_stream VTIRecAInt L s st chunks = Ok st' ->
  ti_wf L st' /\ rows_aligned st'.
Proof.
  intros L s chunks. unfold ti_stream. induction chunks as [|c chunks IH]; intros st st' W A H; cbn [fold_left bind] in H.
  - injection H as <-. auto.
  - destruct (ti_update VTIRecAInt L st c s) as [st1|e] eqn:E.
    2:{ rewrite stream_err in H. discriminate. }
    apply (IH st1); auto.
    + apply (tirec_partition_main _ _ _ _ _ _ W E).
    + apply (tirec_row_order_main _ _ _ _ _ _ W E). split; auto. congruence.
Qed.
