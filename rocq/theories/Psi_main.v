(** Assembly of the SVD/PSI theorems (C18-C20). *)
From Coq Require Import ZArith List Bool Lia Permutation.
From Verif Require Import Prelude Prelude_proofs DataPrep_model DataPrep_spec DataPrep_proofs DataPrep_main.
From Verif Require Import Recommend_model Recommend_spec Recommend_proofs Recommend_main.
From Verif Require Import Psi_model Psi_spec Psi_proofs.
Import ListNotations.
Open Scope Z_scope.

Definition kb (m : mapping) (k : Z) : bool := match f_of m k with Some _ => true | None => false end.

Lemma kb_true m k : kb m k = true <-> f_of m k <> None.
Proof. unfold kb. destruct (f_of m k); split; congruence. Qed.

Definition admb (ms : mappings) (md : mode) (r : row) : bool :=
  let a := kb (m_users ms) (r_user r) in
  let b := kb (m_items ms) (r_item r) in
  match md with
  | MNewUsers => negb a && b
  | MNewItems => a && negb b
  | MOld => a && b
  | MNew => negb a && negb b
  end.

Lemma admb_admissible ms md r : admb ms md r = true <-> admissible ms md r.
Proof.
  unfold admb, admissible, kb.
  destruct md, (f_of (m_users ms) (r_user r)), (f_of (m_items ms) (r_item r)); cbn;
    intuition congruence.
Qed.

Lemma divide_mask_admb ms md df :
  bij (m_users ms) 0 -> bij (m_items ms) 0 -> divide_mask df ms md = map (admb ms md) df.
Proof.
  intros BU BI. unfold divide_mask. apply map_ext. intros r. rewrite !bij_known_or by auto.
  unfold admb, kb. destruct md, (f_of (m_users ms) (r_user r)), (f_of (m_items ms) (r_item r)); reflexivity.
Qed.

Lemma kb_after_u ms md data k :
  kb (m_users (maps_after ms md data)) k
  = kb (m_users ms) k || (ext_users md && memZ k (map r_user data)).
Proof.
  apply eq_true_iff_eq. rewrite orb_true_iff, andb_true_iff, memZ_spec, !kb_true. apply after_known_u.
Qed.
Lemma kb_after_i ms md data k :
  kb (m_items (maps_after ms md data)) k
  = kb (m_items ms) k || (ext_items md && memZ k (map r_item data)).
Proof.
  apply eq_true_iff_eq. rewrite orb_true_iff, andb_true_iff, memZ_spec, !kb_true. apply after_known_i.
Qed.

Lemma select_negb_filter {X} (f : X -> bool) l :
  select (map negb (map f l)) l = filter (fun x => negb (f x)) l.
Proof. rewrite map_map. apply (select_filter (fun x => negb (f x))). Qed.

Lemma loop_step_ok cfg st left_data md :
  core st ->
  let d := filter (admb (ps_maps st) md) left_data in
  let rest := filter (fun r => negb (admb (ps_maps st) md r)) left_data in
  if fits cfg st md d
  then exists st', loop_step cfg (Ok (st, left_data)) md = Ok (st', rest)
         /\ step_rel st st' md d /\ core st' /\ extends (ps_maps st) (ps_maps st')
  else loop_step cfg (Ok (st, left_data)) md = Err ValueError.
Proof.
  intros C d rest. pose proof C as [BU [BI _]].
  assert (HA : forall r, In r d -> admissible (ps_maps st) md r).
  { intros r Hr. apply filter_In in Hr as [_ Hr]. apply admb_admissible; auto. }
  unfold loop_step. cbn [bind]. rewrite divide_mask_admb by auto.
  rewrite select_filter, select_negb_filter. fold d rest.
  pose proof (update_mode_ok cfg st d md C HA) as H. destruct (fits cfg st md d).
  - destruct H as [st' [E R]]. exists st'. rewrite E. cbn [bind]. split; auto. split; auto.
    eapply step_rel_core; eauto.
  - rewrite H. reflexivity.
Qed.

Lemma unknown_user_kb st r : unknown_user st r = negb (kb (m_users (ps_maps st)) (r_user r)).
Proof. unfold unknown_user, fu, kb. destruct (f_of _ _); reflexivity. Qed.
Lemma unknown_item_kb st r : unknown_item st r = negb (kb (m_items (ps_maps st)) (r_item r)).
Proof. unfold unknown_item, fi, kb. destruct (f_of _ _); reflexivity. Qed.

Lemma mem_map_filter {X} (key : X -> Z) (f : X -> bool) l x :
  In x l -> f x = true -> memZ (key x) (map key (filter f l)) = true.
Proof. intros H E. apply memZ_spec, in_map, filter_In. auto. Qed.

Section Chunk.
  Variables (cfg : psi_cfg) (st : psi_state) (data : list row).
  Hypothesis C : core st.

  Let p1 := part_new st data.
  Let p2 := part_new_users st data.
  Let p3 := part_new_items st data.

  Lemma p1_admb : filter (admb (ps_maps st) MNew) data = p1.
  Proof.
    apply filter_ext. intros r. unfold admb. rewrite unknown_user_kb, unknown_item_kb. reflexivity.
  Qed.

  Definition left1 := filter (fun r => negb (unknown_user st r && unknown_item st r)) data.

  Lemma left1_admb : filter (fun r => negb (admb (ps_maps st) MNew r)) data = left1.
  Proof.
    apply filter_ext. intros r. unfold admb. rewrite unknown_user_kb, unknown_item_kb. reflexivity.
  Qed.

  Lemma both_unknown r : In r data -> unknown_user st r = true -> unknown_item st r = true ->
    memZ (r_user r) (map r_user p1) = true /\ memZ (r_item r) (map r_item p1) = true.
  Proof.
    intros H E1 E2. split; apply mem_map_filter; auto; rewrite E1, E2; reflexivity.
  Qed.

  Lemma p2_member r : In r data -> unknown_user st r = true ->
    memZ (r_user r) (map r_user p1) = false -> memZ (r_user r) (map r_user p2) = true.
  Proof. intros H E1 E2. apply mem_map_filter; auto. fold p1. rewrite E1, E2. reflexivity. Qed.
  Lemma p3_member r : In r data -> unknown_item st r = true ->
    memZ (r_item r) (map r_item p1) = false -> memZ (r_item r) (map r_item p3) = true.
  Proof. intros H E1 E2. apply mem_map_filter; auto. fold p1. rewrite E1, E2. reflexivity. Qed.

  Lemma p2_admb : filter (admb (maps_after (ps_maps st) MNew p1) MNewUsers) left1 = p2.
  Proof.
    unfold left1. rewrite filter_filter. apply filter_ext_in. intros r Hr.
    unfold admb. rewrite kb_after_u, kb_after_i. cbn [ext_users ext_items andb]. fold p1.
    pose proof (both_unknown r Hr) as B. rewrite unknown_user_kb, unknown_item_kb in *.
    destruct (kb (m_users _) _), (kb (m_items _) _), (memZ (r_user r) _), (memZ (r_item r) _);
      cbn in *; auto; destruct B; auto; discriminate.
  Qed.

  Definition left2 := filter (fun r => negb (unknown_user st r
                            && negb (memZ (r_user r) (map r_user p1)))) left1.

  Lemma left2_admb :
    filter (fun r => negb (admb (maps_after (ps_maps st) MNew p1) MNewUsers r)) left1 = left2.
  Proof.
    unfold left2, left1. rewrite !filter_filter. apply filter_ext_in. intros r Hr.
    unfold admb. rewrite kb_after_u, kb_after_i. cbn [ext_users ext_items andb].
    pose proof (both_unknown r Hr) as B. rewrite unknown_user_kb, unknown_item_kb in *.
    destruct (kb (m_users _) _), (kb (m_items _) _), (memZ (r_user r) _), (memZ (r_item r) _);
      cbn in *; auto; destruct B; auto; discriminate.
  Qed.

  Let ms2 := maps_after (maps_after (ps_maps st) MNew p1) MNewUsers p2.

  Lemma p3_admb : filter (admb ms2 MNewItems) left2 = p3.
  Proof.
    unfold left2, left1. rewrite !filter_filter. apply filter_ext_in. intros r Hr.
    unfold admb, ms2. rewrite !kb_after_u, !kb_after_i. cbn [ext_users ext_items andb]. fold p1.
    pose proof (both_unknown r Hr) as B. pose proof (p2_member r Hr) as B2.
    rewrite unknown_user_kb, unknown_item_kb in *.
    destruct (kb (m_users _) _), (kb (m_items _) _), (memZ (r_user r) (map r_user p1)),
      (memZ (r_item r) (map r_item p1)), (memZ (r_user r) (map r_user p2));
      cbn in *; auto; try (destruct B; auto; discriminate); try (discriminate B2; auto).
  Qed.

  Lemma left3_admb : filter (fun r => negb (admb ms2 MNewItems r)) left2 = part_old st data.
  Proof.
    unfold left2, left1, part_old. rewrite !filter_filter. apply filter_ext_in. intros r Hr.
    unfold admb, ms2. rewrite !kb_after_u, !kb_after_i. cbn [ext_users ext_items andb].
    fold p1.
    pose proof (both_unknown r Hr) as B. pose proof (p2_member r Hr) as B2.
    rewrite unknown_user_kb, unknown_item_kb in *.
    destruct (kb (m_users _) _), (kb (m_items _) _), (memZ (r_user r) (map r_user p1)),
      (memZ (r_item r) (map r_item p1)), (memZ (r_user r) (map r_user p2));
      cbn in *; auto; try (destruct B; auto; discriminate); try (discriminate B2; auto).
  Qed.

  Let ms3 := maps_after ms2 MNewItems p3.

  Lemma all_known3 r : In r data -> admissible ms3 MOld r.
  Proof.
    intros Hr. apply admb_admissible. unfold admb, ms3, ms2.
    rewrite !kb_after_u, !kb_after_i. cbn [ext_users ext_items andb].
    pose proof (p2_member r Hr) as B2. pose proof (p3_member r Hr) as B3.
    rewrite unknown_user_kb in B2. rewrite unknown_item_kb in B3.
    destruct (kb (m_users _) _), (kb (m_items _) _), (memZ (r_user r) (map r_user p1)),
      (memZ (r_item r) (map r_item p1)), (memZ (r_user r) (map r_user p2)), (memZ (r_item r) (map r_item p3));
      cbn in *; auto; try (discriminate B2; auto); try (discriminate B3; auto).
  Qed.

  (** The first three steps. *)
  Definition chain3 (st3 : psi_state) : Prop :=
    exists st1 st2, step_rel st st1 MNew p1 /\ step_rel st1 st2 MNewUsers p2 /\ step_rel st2 st3 MNewItems p3
      /\ extends (ps_maps st) (ps_maps st1) /\ extends (ps_maps st1) (ps_maps st2)
      /\ extends (ps_maps st2) (ps_maps st3) /\ core st3 /\ ps_maps st3 = ms3.

  Lemma step1 : exists st1, loop_step cfg (Ok (st, data)) MNew = Ok (st1, left1)
     /\ step_rel st st1 MNew p1 /\ core st1 /\ extends (ps_maps st) (ps_maps st1).
  Proof.
    pose proof (loop_step_ok cfg st data MNew C) as H. cbv zeta in H.
    rewrite p1_admb, left1_admb in H.
    assert (fits cfg st MNew p1 = true) as F by (unfold fits; destruct (cf_init cfg); reflexivity).
    rewrite F in H. exact H.
  Qed.

  Lemma brand_step1 st1 : step_rel st st1 MNew p1 ->
    ps_n_users st1 = ps_n_users st + count_u p1 /\ ps_n_items st1 = ps_n_items st + count_i p1.
  Proof. intros [_ [_ [E _]]]. injection E as -> ->. auto. Qed.

  Definition fit2 : bool := match cf_init cfg with
    | INone => count_u p2 <=? ps_n_items st + count_i p1 | _ => true end.
  Definition fit3 : bool := match cf_init cfg with
    | INone => count_i p3 <=? ps_n_users st + count_u p1 + count_u p2 | _ => true end.

  Lemma three_steps :
    if fit2 && fit3
    then exists st3, fold_left (loop_step cfg) [MNew; MNewUsers; MNewItems] (Ok (st, data))
                     = Ok (st3, part_old st data) /\ chain3 st3
    else fold_left (loop_step cfg) [MNew; MNewUsers; MNewItems] (Ok (st, data)) = Err ValueError.
  Proof.
    destruct step1 as [st1 [E1 [R1 [C1 X1]]]].
    destruct (brand_step1 st1 R1) as [NU1 NI1].
    cbn [fold_left]. rewrite E1.
    pose proof (loop_step_ok cfg st1 left1 MNewUsers C1) as H2. cbv zeta in H2.
    pose proof R1 as [M1 _]. rewrite M1 in H2. rewrite p2_admb, left2_admb in H2.
    assert (F2 : fits cfg st1 MNewUsers p2 = fit2).
    { unfold fits, fit2. rewrite NI1. reflexivity. }
    rewrite F2 in H2. destruct fit2; cbn [andb].
    2:{ rewrite H2. reflexivity. }
    destruct H2 as [st2 [E2 [R2 [C2 X2]]]]. rewrite E2.
    pose proof (loop_step_ok cfg st2 left2 MNewItems C2) as H3. cbv zeta in H3.
    pose proof R2 as [M2 [_ [N2 _]]]. rewrite M1 in M2. fold ms2 in M2.
    rewrite M2 in H3. rewrite p3_admb, left3_admb in H3.
    assert (F3 : fits cfg st2 MNewItems p3 = fit3).
    { unfold fits, fit3. injection N2 as -> _. rewrite NU1. reflexivity. }
    rewrite F3 in H3. destruct fit3.
    2:{ rewrite H3. reflexivity. }
    destruct H3 as [st3 [E3 [R3 [C3 X3]]]]. exists st3. split; [exact E3|].
    exists st1, st2. split; auto. split; auto. split; auto. rewrite <- M1 in X2. split; auto. split; auto. 
    rewrite <- M2 in X3. split; auto. split; auto. 
    pose proof R3 as [M3 _]. rewrite M3, M2. reflexivity.
  Qed.

  Lemma four_steps_split : forall acc, fold_left (loop_step cfg) [MNew; MNewUsers; MNewItems; MOld] acc
    = loop_step cfg (fold_left (loop_step cfg) [MNew; MNewUsers; MNewItems] acc) MOld.
  Proof. reflexivity. Qed.

  Definition old_data : list row :=
    match cf_init cfg, cf_integrator cfg with
    | INone, _ => part_old st data
    | _, false => left1
    | _, true => data
    end.

  Lemma old_incl : incl old_data data.
  Proof.
    unfold old_data, left1, part_old. destruct (cf_init cfg), (cf_integrator cfg); intros r Hr;
      try (apply filter_In in Hr as [Hr _]); auto.
  Qed.

  Lemma psi_update_steps :
    (cf_init cfg = INone -> cf_integrator cfg = false) ->
    psi_update cfg st data
    = do '(s, _) <- fold_left (loop_step cfg) [MNew; MNewUsers; MNewItems] (Ok (st, data));
      do s' <- update_factors_by_mode cfg s old_data MOld;
      update_history s' data.
  Proof.
    intros Hc. unfold psi_update, old_data.
    destruct (cf_init cfg) eqn:EI; [rewrite (Hc eq_refl)|destruct (cf_integrator cfg)|destruct (cf_integrator cfg)].
    - rewrite four_steps_split. pose proof three_steps as T.
      destruct (fit2 && fit3).
      + destruct T as [st3 [-> [st1 [st2 [_ [_ [_ [_ [_ [_ [C3 M3]]]]]]]]]]]. cbn [bind].
        unfold loop_step. cbn [bind]. rewrite divide_mask_admb by apply C3. rewrite select_filter.
        assert (filter (admb (ps_maps st3) MOld) (part_old st data) = part_old st data) as ->.
        { rewrite M3. apply filter_all. intros r Hr. apply admb_admissible, all_known3.
          apply filter_In in Hr. tauto. }
        destruct (update_factors_by_mode cfg st3 (part_old st data) MOld); reflexivity.
      + rewrite T. reflexivity.
    - destruct (fold_left _ _ _) as [[s d]|]; reflexivity.
    - cbn [fold_left]. destruct step1 as [st1 [-> _]]. cbn [bind].
      destruct (loop_step cfg (loop_step cfg (Ok (st1, left1)) MNewUsers) MNewItems) as [[s d]|]; reflexivity.
    - destruct (fold_left _ _ _) as [[s d]|]; reflexivity.
    - cbn [fold_left]. destruct step1 as [st1 [-> _]]. cbn [bind].
      destruct (loop_step cfg (loop_step cfg (Ok (st1, left1)) MNewUsers) MNewItems) as [[s d]|]; reflexivity.
  Qed.

  Lemma logged_filter md d : logged md d = filter nonempty [(md, d)].
  Proof. destruct d; reflexivity. Qed.

  Lemma expected_eq : expected_steps cfg st data
     = logged MNew p1 ++ logged MNewUsers p2 ++ logged MNewItems p3 ++ logged MOld old_data.
  Proof.
    unfold expected_steps. fold p1 p2 p3. rewrite !logged_filter.
    fold left1. fold old_data. cbn [filter].
    destruct (nonempty (MNew, p1)), (nonempty (MNewUsers, p2)), (nonempty (MNewItems, p3)),
      (nonempty (MOld, old_data)); reflexivity.
  Qed.

  (** Full description of a successful update. *)
  Definition good_update (st' : psi_state) : Prop :=
    core st' /\ extends (ps_maps st) (ps_maps st')
    /\ ps_n_users st' = ps_n_users st + count_u p1 + count_u p2
    /\ ps_n_items st' = ps_n_items st + count_i p1 + count_i p3
    /\ (exists us is, ps_history st' = ps_history st ++ combine us is
          /\ Forall2 (fun r u => f_of (m_users (ps_maps st')) (r_user r) = Some u
                /\ 0 <= u < n_indices (m_users (ps_maps st'))) data us
          /\ Forall2 (fun r i => f_of (m_items (ps_maps st')) (r_item r) = Some i
                /\ 0 <= i < n_indices (m_items (ps_maps st'))) data is)
    /\ (exists l, ps_log st' = ps_log st ++ l /\ log_view l = expected_steps cfg st data
          /\ Forall (lands (ps_maps st')) l)
    /\ ps_maps st' = ms3.

  Lemma psi_update_cases :
    (cf_init cfg = INone -> cf_integrator cfg = false) ->
    if fit2 && fit3
    then exists st', psi_update cfg st data = Ok st' /\ good_update st'
    else psi_update cfg st data = Err ValueError.
  Proof.
    intros Hc. rewrite psi_update_steps by auto. pose proof three_steps as T.
    destruct (fit2 && fit3); [|rewrite T; reflexivity].
    destruct T as [st3 [-> [st1 [st2 [R1 [R2 [R3 [X1 [X2 [X3 [C3 M3]]]]]]]]]]]. cbn [bind].
    pose proof (update_mode_ok cfg st3 old_data MOld C3) as U.
    assert (HA : forall r, In r old_data -> admissible (ps_maps st3) MOld r).
    { intros r Hr. rewrite M3. apply all_known3. apply old_incl; auto. }
    specialize (U HA).
    assert (F : fits cfg st3 MOld old_data = true) by (unfold fits; destruct (cf_init cfg); reflexivity).
    rewrite F in U. destruct U as [st4 [-> R4]]. cbn [bind].
    destruct (step_rel_core _ _ _ _ C3 HA R4) as [C4 X4].
    pose proof R4 as [M4 [H4 [N4 L4]]]. unfold maps_after in M4. cbn [ext_users ext_items] in M4.
    assert (M4' : ps_maps st4 = ms3).
    { rewrite M4, M3. destruct ms3; reflexivity. }
    clear M4. pose proof C4 as [BU [BI [EU EI]]].
    unfold update_history.
    destruct (known_lookup r_user (m_users (ps_maps st4)) data BU) as [us [E1 F1]].
    { intros r Hr. rewrite M4'. apply (all_known3 r Hr). }
    destruct (known_lookup r_item (m_items (ps_maps st4)) data BI) as [is [E2 F2]].
    { intros r Hr. rewrite M4'. apply (all_known3 r Hr). }
    rewrite E1. cbn [bind]. rewrite E2. cbn [bind]. eexists. split; [reflexivity|].
    destruct R1 as [M1 [H1 [N1 [l1 [L1 [V1 D1]]]]]].
    destruct R2 as [M2 [H2 [N2 [l2 [L2 [V2 D2]]]]]].
    destruct R3 as [M3' [H3 [N3 [l3 [L3 [V3 D3]]]]]].
    destruct L4 as [l4 [L4 [V4 D4]]].
    injection N1 as NU1 NI1. injection N2 as NU2 NI2. injection N3 as NU3 NI3. injection N4 as NU4 NI4.
    cbn [ext_users ext_items] in *.
    unfold good_update. cbn [ps_maps ps_n_users ps_n_items ps_history ps_log].
    split; [exact C4|]. split; [eapply extends_trans; [exact X1|]; eapply extends_trans; [exact X2|];
      eapply extends_trans; [exact X3|exact X4]|].
    split; [lia|]. split; [lia|]. split; [|split].
    - exists us, is. split; [|split; auto]. congruence.
    - exists (l1 ++ l2 ++ l3 ++ l4). split; [rewrite L4, L3, L2, L1, !app_assoc; reflexivity|]. split.
      + unfold log_view in *. rewrite !map_app, V1, V2, V3, V4. symmetry. apply expected_eq.
      + repeat (apply Forall_app; split).
        * eapply Forall_impl; [|exact D1]. intros s. apply lands_extends.
          eapply extends_trans; [exact X2|]. eapply extends_trans; [exact X3|exact X4].
        * eapply Forall_impl; [|exact D2]. intros s. apply lands_extends.
          eapply extends_trans; [exact X3|exact X4].
        * eapply Forall_impl; [|exact D3]. intros s. apply lands_extends. exact X4.
        * exact D4.
    - exact M4'.
  Qed.
End Chunk.

(** ** Partition *)
Lemma filter_partition4 {X} (f g h : X -> bool) l :
  (forall x, In x l -> f x = true -> g x = false) ->
  (forall x, In x l -> f x = true -> h x = false) ->
  (forall x, In x l -> g x = true -> h x = false) ->
  Permutation (filter f l ++ filter g l ++ filter h l
               ++ filter (fun x => negb (f x) && negb (g x) && negb (h x)) l) l.
Proof.
  induction l as [|x l IH]; intros H1 H2 H3; simpl; auto.
  assert (IH' := IH (fun y Hy => H1 y (or_intror Hy)) (fun y Hy => H2 y (or_intror Hy))
                    (fun y Hy => H3 y (or_intror Hy))).
  pose proof (H1 x (or_introl eq_refl)) as G1. pose proof (H2 x (or_introl eq_refl)) as G2.
  pose proof (H3 x (or_introl eq_refl)) as G3.
  destruct (f x), (g x), (h x); cbn;
    try (specialize (G1 eq_refl); discriminate G1); try (specialize (G2 eq_refl); discriminate G2);
    try (specialize (G3 eq_refl); discriminate G3).
  - constructor. exact IH'.
  - etransitivity; [symmetry; apply Permutation_middle|]. constructor. exact IH'.
  - rewrite app_assoc. etransitivity; [symmetry; apply Permutation_middle|]. constructor.
    rewrite <- app_assoc. exact IH'.
  - rewrite !app_assoc. etransitivity; [symmetry; apply Permutation_middle|]. constructor.
    rewrite <- !app_assoc. exact IH'.
Qed.

Lemma parts_partition st data :
  Permutation (part_new st data ++ part_new_users st data ++ part_new_items st data ++ part_old st data) data.
Proof.
  unfold part_old, part_new_users, part_new_items.
  set (p1 := part_new st data).
  assert (B : forall r, In r data -> unknown_user st r && unknown_item st r = true ->
     memZ (r_user r) (map r_user p1) = true /\ memZ (r_item r) (map r_item p1) = true).
  { intros r Hr E. apply andb_true_iff in E as [E1 E2]. apply (both_unknown st data r); auto. }
  apply (filter_partition4 (fun r => unknown_user st r && unknown_item st r)).
  - intros r Hr E. destruct (B r Hr E) as [-> _]. apply andb_false_r.
  - intros r Hr E. destruct (B r Hr E) as [_ ->]. apply andb_false_r.
  - intros r Hr E. apply andb_true_iff in E as [E1 E2].
    destruct (unknown_item st r) eqn:EI; auto. cbn.
    destruct (B r Hr) as [B1 _]; [rewrite E1; auto|]. rewrite B1 in E2. discriminate.
Qed.

Lemma filter_neg_perm {X} (f : X -> bool) l :
  Permutation (filter f l ++ filter (fun x => negb (f x)) l) l.
Proof.
  induction l as [|x l IH]; simpl; auto. destruct (f x); simpl.
  - constructor; auto.
  - etransitivity; [symmetry; apply Permutation_middle|]. constructor; auto.
Qed.

Definition consumed (cfg : psi_cfg) (steps : list (mode * list row)) : list row :=
  concat (map snd (filter (fun s => uses_values cfg (fst s)) steps)).

Lemma consumed_app cfg a b : consumed cfg (a ++ b) = consumed cfg a ++ consumed cfg b.
Proof. unfold consumed. rewrite filter_app, map_app, concat_app. reflexivity. Qed.

Lemma consumed_logged cfg md d : consumed cfg (logged md d) = if uses_values cfg md then d else [].
Proof.
  unfold consumed, logged. destruct d as [|r d]; cbn.
  - destruct (uses_values cfg md); reflexivity.
  - destruct (uses_values cfg md); cbn; rewrite ?app_nil_r; reflexivity.
Qed.

Lemma consumed_expected cfg st data :
  (cf_init cfg = INone -> cf_integrator cfg = false) ->
  Permutation (consumed cfg (expected_steps cfg st data)) data.
Proof.
  intros Hc. rewrite expected_eq, !consumed_app, !consumed_logged.
  unfold uses_values, old_data. destruct (cf_init cfg); [|destruct (cf_integrator cfg)|destruct (cf_integrator cfg)];
    cbn.
  - apply parts_partition.
  - reflexivity.
  - apply (filter_neg_perm (fun r => unknown_user st r && unknown_item st r)).
  - reflexivity.
  - apply (filter_neg_perm (fun r => unknown_user st r && unknown_item st r)).
Qed.

Lemma aligned_core st : aligned st -> core st.
Proof. intros [A [B [D [E _]]]]. split; auto. Qed.

Lemma count_u_ndistinct d : count_u d = Z.of_nat (ndistinct (map r_user d)).
Proof. unfold count_u. rewrite unique_length_ndistinct. reflexivity. Qed.
Lemma count_i_ndistinct d : count_i d = Z.of_nat (ndistinct (map r_item d)).
Proof. unfold count_i. rewrite unique_length_ndistinct. reflexivity. Qed.

Lemma fit_brand cfg st data :
  fit2 cfg st data && fit3 cfg st data = true <-> (cf_init cfg = INone -> brand_ok st data).
Proof.
  unfold fit2, fit3, brand_ok. rewrite !count_u_ndistinct, !count_i_ndistinct.
  destruct (cf_init cfg); [|split; [discriminate|reflexivity]..].
  rewrite andb_true_iff, !Z.leb_le. split; [auto|]. intros H; apply H; reflexivity.
Qed.

Lemma psi_update_outcome_main cfg st data :
  aligned st ->
  (cf_init cfg = INone -> cf_integrator cfg = true -> psi_update cfg st data = Err RuntimeError)
  /\ ((cf_init cfg = INone -> cf_integrator cfg = false) ->
        ((exists st', psi_update cfg st data = Ok st') <-> (cf_init cfg = INone -> brand_ok st data))
        /\ (forall e, psi_update cfg st data = Err e -> e = ValueError)).
Proof.
  intros A. split.
  - intros E1 E2. unfold psi_update. rewrite E1, E2. reflexivity.
  - intros Hc. pose proof (psi_update_cases cfg st data (aligned_core st A) Hc) as P.
    rewrite <- fit_brand. destruct (fit2 cfg st data && fit3 cfg st data).
    + destruct P as [st' [E _]]. split; [split; eauto|]. congruence.
    + split; [|congruence]. split; [intros [st' E]; congruence|discriminate].
Qed.

Lemma cfg_supported cfg st data st' :
  psi_update cfg st data = Ok st' -> cf_init cfg = INone -> cf_integrator cfg = false.
Proof.
  intros H E. unfold psi_update in H. rewrite E in H. destruct (cf_integrator cfg); [discriminate|auto].
Qed.

Lemma psi_update_good cfg st data st' :
  core st -> psi_update cfg st data = Ok st' -> good_update cfg st data st'.
Proof.
  intros A H. pose proof (psi_update_cases cfg st data A (cfg_supported _ _ _ _ H)) as P.
  destruct (fit2 cfg st data && fit3 cfg st data); [|congruence].
  destruct P as [s [E G]]. assert (s = st') by congruence. subst; auto.
Qed.

Lemma psi_update_partition_main cfg st data st' :
  aligned st -> psi_update cfg st data = Ok st' ->
  exists l, ps_log st' = ps_log st ++ l
    /\ map (fun s => (sl_mode s, sl_data s)) l = expected_steps cfg st data
    /\ Permutation (concat (map sl_data (filter (fun s => uses_values cfg (sl_mode s)) l))) data
    /\ Forall (step_lands st') l.
Proof.
  intros A H. pose proof (psi_update_good _ _ _ _ (aligned_core _ A) H) as G.
  destruct G as [_ [_ [_ [_ [_ [[l [L [V D]]] _]]]]]].
  exists l. split; auto. split; auto. split; [|exact D].
  pose proof (consumed_expected cfg st data (cfg_supported _ _ _ _ H)) as P.
  rewrite <- V in P. unfold consumed, log_view in P.
  replace (concat (map sl_data (filter (fun s => uses_values cfg (sl_mode s)) l)))
    with (concat (map snd (filter (fun s : mode * list row => uses_values cfg (fst s))
            (map (fun s => (sl_mode s, sl_data s)) l)))); auto.
  clear. f_equal. induction l as [|s l IH]; simpl; auto.
  destruct (uses_values cfg (sl_mode s)); simpl; rewrite IH; reflexivity.
Qed.

(** ** Streams *)
Lemma fold_max_spec l b : forall x, In x (b :: l) -> x <= fold_left Z.max l b.
Proof.
  revert b. induction l as [|y l IH]; intros b x H; simpl in *.
  - destruct H as [->|[]]; lia.
  - destruct H as [->|[->|H]].
    + etransitivity; [apply Z.le_max_l|]. apply IH. left; auto.
    + etransitivity; [apply (Z.le_max_r b)|]. apply IH. left; auto.
    + apply IH. right; auto.
Qed.

Lemma fold_max_bound l b n : b <= n -> (forall x, In x l -> x <= n) -> fold_left Z.max l b <= n.
Proof.
  revert b. induction l as [|y l IH]; intros b Hb H; simpl; auto.
  apply IH; [|intros; apply H; right; auto]. pose proof (H y (or_introl eq_refl)). lia.
Qed.

Lemma max_index_count (key : row -> Z) (data df : list row) :
  data <> [] ->
  let m := get_cont_mapping_struct (unique (map key data)) 0 in
  bij m 0 ->
  Forall2 (fun r r' => f_of m (key r) = Some (key r')) data df ->
  fold_left Z.max (map key df) (-1) + 1 = n_indices m.
Proof.
  intros NE m B F.
  assert (Nm : n_indices m = Z.of_nat (length (unique (map key data)))) by apply n_indices_get.
  assert (0 < length (unique (map key data)))%nat.
  { destruct data as [|r data]; [congruence|]. simpl. lia. }
  enough (fold_left Z.max (map key df) (-1) = n_indices m - 1) by lia.
  apply Z.le_antisymm.
  - apply fold_max_bound; [lia|]. intros x Hx. apply in_map_iff in Hx as [r' [<- Hr']].
    destruct (Forall2_In_r _ _ _ _ F Hr') as [r [_ Hf]]. apply (bij_f_nonneg m) in Hf; auto. lia.
  - apply fold_max_spec. right.
    destruct B as [_ [FG R]]. destruct (proj2 (R (n_indices m - 1))) as [k Hk]; [lia|].
    apply FG in Hk.
    assert (In k (map key data)).
    { destruct (in_dec Z.eq_dec k (map key data)) as [|N]; auto. exfalso.
      assert (f_of m k = None) by (apply f_get_None; rewrite unique_In; auto). congruence. }
    apply in_map_iff in H0 as [r [<- Hr]]. destruct (Forall2_In_l _ _ _ _ F Hr) as [r' [Hr' Hf]].
    apply in_map_iff. exists r'. split; auto. congruence.
Qed.

(** Invariant of a model that has been given exactly the rows [all]. *)
Definition inv (st : psi_state) (all : list row) : Prop :=
  core st /\ 2 <= ps_n_items st
  /\ Forall2 (fun r p => fu st (r_user r) = Some (fst p) /\ fi st (r_item r) = Some (snd p))
       all (ps_history st)
  /\ (forall k, fu st k <> None <-> In k (map r_user all))
  /\ (forall k, fi st k <> None <-> In k (map r_item all))
  /\ Forall (step_lands st) (ps_log st).

Lemma train_inv rank data st : svd_train rank data = Ok st -> inv st data.
Proof.
  unfold svd_train. intros H.
  destruct (get_df_with_updated_indices data) as [[df ms]|] eqn:E; cbn [bind] in H; [|discriminate].
  destruct (reindex_maps _ _ _ E) as [MU [MI F]].
  assert (BU : bij (m_users ms) 0) by (rewrite MU; apply get_bij_iff, unique_NoDup).
  assert (BI : bij (m_items ms) 0) by (rewrite MI; apply get_bij_iff, unique_NoDup).
  destruct df as [|r0 df0]; [discriminate|]. remember (r0 :: df0) as df eqn:Ed.
  assert (NE : data <> []) by (intros ->; rewrite Ed in F; inversion F).
  destruct (_ && _) eqn:EB in H; [|discriminate]. injection H as <-.
  assert (NU : fold_left Z.max (map r_user df) (-1) + 1 = n_indices (m_users ms)).
  { rewrite MU. apply (max_index_count r_user data df NE); [rewrite <- MU; auto|].
    rewrite <- MU. eapply Forall2_impl; [|exact F]. intros a b Hab; apply Hab. }
  assert (NI : fold_left Z.max (map r_item df) (-1) + 1 = n_indices (m_items ms)).
  { rewrite MI. apply (max_index_count r_item data df NE); [rewrite <- MI; auto|].
    rewrite <- MI. eapply Forall2_impl; [|exact F]. intros a b Hab; apply Hab. }
  apply andb_true_iff in EB as [B1 B2]. apply Z.ltb_lt in B1, B2.
  unfold inv, core. cbn [ps_maps ps_n_users ps_n_items ps_history ps_log].
  split; [auto|]. split; [lia|]. split.
  { unfold fu, fi. cbn [ps_maps]. clear - F. induction F as [|a b l l' Hab F IH]; simpl; constructor; auto.
    destruct Hab as [H1 [_ [H2 _]]]. auto. }
  unfold fu, fi. cbn [ps_maps]. split; [|split; [|constructor]].
  - intros k. rewrite MU. pose proof (f_get_None (unique (map r_user data)) 0 k) as H.
    rewrite unique_In in H. destruct (in_dec Z.eq_dec k (map r_user data)); tauto.
  - intros k. rewrite MI. pose proof (f_get_None (unique (map r_item data)) 0 k) as H.
    rewrite unique_In in H. destruct (in_dec Z.eq_dec k (map r_item data)); tauto.
Qed.

Lemma Forall2_app2 {X Y} (P : X -> Y -> Prop) a a' b b' :
  Forall2 P a a' -> Forall2 P b b' -> Forall2 P (a ++ b) (a' ++ b').
Proof. intros H G. induction H; simpl; auto. Qed.

Lemma part_new_users_sub st data k :
  In k (map r_user (part_new st data)) \/ In k (map r_user (part_new_users st data)) ->
  In k (map r_user data).
Proof.
  intros [H|H]; apply in_map_iff in H as [r [<- Hr]]; apply filter_In in Hr as [Hr _]; apply in_map; auto.
Qed.
Lemma part_new_items_sub st data k :
  In k (map r_item (part_new st data)) \/ In k (map r_item (part_new_items st data)) ->
  In k (map r_item data).
Proof.
  intros [H|H]; apply in_map_iff in H as [r [<- Hr]]; apply filter_In in Hr as [Hr _]; apply in_map; auto.
Qed.

Lemma Forall_app_intro {X} (P : X -> Prop) a b : Forall P a -> Forall P b -> Forall P (a ++ b).
Proof. intros. apply Forall_app. auto. Qed.

Lemma update_inv cfg st all data st' :
  inv st all -> psi_update cfg st data = Ok st' -> inv st' (all ++ data).
Proof.
  intros [C [N2 [H [KU [KI L]]]]] E. pose proof (psi_update_good _ _ _ _ C E) as G.
  destruct G as [C' [X [NU [NI [[us [is [EH [FU FI]]]] [[l [EL [V D]]] M]]]]]].
  pose proof C as [_ [_ [_ _]]].
  assert (KU' : forall k, fu st' k <> None <-> In k (map r_user (all ++ data))).
  { intros k. rewrite map_app, in_app_iff. rewrite <- KU. unfold fu. rewrite M.
    rewrite !after_known_u. cbn [ext_users]. pose proof (part_new_users_sub st data k).
    assert (U3 : In k (map r_user data) -> fu st' k <> None).
    { intros Hk. apply in_map_iff in Hk as [r [<- Hr]]. unfold fu. rewrite M.
      exact (proj1 (all_known3 st data r Hr)). }
    unfold fu in U3. rewrite M, !after_known_u in U3. cbn [ext_users] in U3.
    split.
    - intros [[[Q|[_ Q]]|[_ Q]]|[Q _]]; auto. discriminate.
    - intros [Hk|Hk]; auto. }
  assert (KI' : forall k, fi st' k <> None <-> In k (map r_item (all ++ data))).
  { intros k. rewrite map_app, in_app_iff. rewrite <- KI. unfold fi. rewrite M.
    rewrite !after_known_i. cbn [ext_items]. pose proof (part_new_items_sub st data k).
    assert (U3 : In k (map r_item data) -> fi st' k <> None).
    { intros Hk. apply in_map_iff in Hk as [r [<- Hr]]. unfold fi. rewrite M.
      exact (proj2 (all_known3 st data r Hr)). }
    unfold fi in U3. rewrite M, !after_known_i in U3. cbn [ext_items] in U3.
    split.
    - intros [[[Q|[_ Q]]|[Q _]]|[_ Q]]; auto. discriminate.
    - intros [Hk|Hk]; auto. }
  split; [exact C'|]. split; [unfold count_i in NI; lia|]. split; [|split; [|split]]; auto.
  - rewrite EH. apply Forall2_app2.
    + eapply Forall2_impl; [|exact H]. intros r p [P1 P2]. destruct X as [X1 X2].
      unfold fu, fi in *. auto.
    + clear - FU FI. unfold fu, fi. revert is FI. induction FU as [|r u data us [HU _] FU IH]; intros is FI;
        inversion FI as [|? i ? is' [HI _] FI']; subst; simpl; constructor; auto.
  - rewrite EL. apply Forall_app_intro; [|exact D].
    eapply Forall_impl; [|exact L]. intros s. apply (lands_extends (ps_maps st) (ps_maps st')); auto.
Qed.

Lemma stream_inv cfg chunks : forall st all st',
  inv st all -> psi_stream cfg st chunks = Ok st' -> inv st' (all ++ concat chunks).
Proof.
  unfold psi_stream. induction chunks as [|c chunks IH]; intros st all st' I H; simpl in H.
  - injection H as <-. simpl. rewrite app_nil_r. auto.
  - destruct (psi_update cfg st c) as [s1|e] eqn:E.
    + simpl. rewrite app_assoc. eapply IH; [|exact H]. eapply update_inv; eauto.
    + exfalso. clear - H. induction chunks; simpl in H; [discriminate|auto].
Qed.

Lemma inv_aligned st all : inv st all -> aligned st.
Proof.
  intros [C [_ [H _]]]. pose proof C as [BU [BI [EU EI]]].
  split; auto. split; auto. split; auto. split; auto.
  intros u j Hin. destruct (Forall2_In_r _ _ _ _ H Hin) as [r [_ [H1 H2]]]. cbn in H1, H2.
  unfold fu in H1. unfold fi in H2. apply bij_f_nonneg in H1, H2; auto. lia.
Qed.

Lemma psi_stream_aligned_main rank data cfg chunks st0 st :
  svd_train rank data = Ok st0 -> psi_stream cfg st0 chunks = Ok st ->
  aligned st
  /\ (forall k, fu st k <> None <-> In k (map r_user (data ++ concat chunks)))
  /\ (forall k, fi st k <> None <-> In k (map r_item (data ++ concat chunks)))
  /\ Forall (step_lands st) (ps_log st)
  /\ (forall k v, fu st0 k = Some v -> fu st k = Some v)
  /\ (forall k v, fi st0 k = Some v -> fi st k = Some v).
Proof.
  intros T S. pose proof (train_inv _ _ _ T) as I0. pose proof (stream_inv _ _ _ _ _ I0 S) as I.
  split; [eapply inv_aligned; eauto|]. pose proof I as [_ [_ [_ [KU [KI L]]]]].
  split; auto. split; auto. split; auto.
  assert (X : extends (ps_maps st0) (ps_maps st)).
  { clear T I KU KI L. revert st0 data I0 S. unfold psi_stream.
    induction chunks as [|c chunks IH]; intros st0 data I0 S; simpl in S.
    - injection S as <-. apply extends_refl.
    - destruct (psi_update cfg st0 c) as [s1|e] eqn:E.
      + pose proof (psi_update_good _ _ _ _ (proj1 I0) E) as [_ [X _]].
        eapply extends_trans; [exact X|]. eapply IH; [|exact S]. eapply update_inv; eauto.
      + exfalso. clear - S. induction chunks; simpl in S; [discriminate|auto]. }
  exact X.
Qed.

Lemma psi_rec_wf {A} st all (scores : Z -> list A) :
  inv st all -> (forall u, Z.of_nat (length (scores u)) = ps_n_items st) -> wf_state (psi_rec st scores).
Proof.
  intros I HS. pose proof (inv_aligned _ _ I) as [BU [BI [EU [EI HH]]]].
  destruct BU as [PU BU], BI as [PI BI].
  unfold wf_state, psi_rec. cbn [rs_history rs_n_users rs_n_items rs_scores rs_mappings].
  rewrite !Z2Nat.id by lia.
  split; [auto|]. split; [|split].
  - intros u Hu. exists (scores u). split; auto. rewrite <- (HS u). lia.
  - intros k u H. pose proof (bij_f_nonneg _ _ _ (conj PU BU) H). lia.
  - intros j Hj. rewrite EI in Hj. destruct BI as [_ R]. apply R. lia.
Qed.

Lemma psi_never_seen_main :
  forall {A} (leb : A -> A -> bool),
    (forall x y z, leb x y = true -> leb y z = true -> leb x z = true) ->
  forall argpart, argpartition_contract leb argpart ->
  forall rank data cfg chunks st0 st (scores : Z -> list A) users k rows,
    svd_train rank data = Ok st0 -> psi_stream cfg st0 chunks = Ok st ->
    (forall u, Z.of_nat (length (scores u)) = ps_n_items st) -> (1 <= k)%nat ->
    recommend argpart (psi_rec st scores) users k true false = Ok rows ->
    Forall2 (fun uid row => length row = Nat.min k (Z.to_nat (ps_n_items st))
      /\ forall r, In r (data ++ concat chunks) -> r_user r = uid -> ~ In (r_item r) row) users rows.
Proof.
  intros A leb trans argpart Con rank data cfg chunks st0 st scores users k rows T S HS Hk R.
  pose proof (stream_inv _ _ _ _ _ (train_inv _ _ _ T) S) as I.
  pose proof (psi_rec_wf st _ scores I HS) as W.
  pose proof I as [C [N2 [H _]]].
  pose proof (recommend_top_k_main leb trans argpart Con (psi_rec st scores) users k true false rows W Hk) as F.
  cbn [psi_rec rs_n_items rs_mappings rs_scores] in F.
  specialize (F ltac:(lia) ltac:(lia) R).
  eapply Forall2_impl; [|exact F].
  intros uid row [u [sc [irow [Hu [_ [[L [_ [CA _]]] TR]]]]]]. unfold translated in TR. cbn [psi_rec rs_mappings] in TR.
  split.
  { pose proof (Forall2_len _ _ _ TR). lia. }
  intros r Hr Eu Hin. destruct (Forall2_In_r _ _ _ _ TR Hin) as [j [Hj Gj]].
  destruct (Forall2_In_l _ _ _ _ H Hr) as [[u' j'] [Hp [P1 P2]]]. cbn in P1, P2.
  unfold fu in P1. unfold fi in P2. rewrite Eu in P1. assert (u' = u) by congruence. subst u'.
  destruct C as [_ [[_ [FG _]] _]]. apply FG in P2.
  assert (j' = j).
  { apply FG in P2. apply FG in Gj. congruence. }
  subst j'. destruct (CA j Hj) as [_ NS]. apply (NS eq_refl). exact Hp.
Qed.
