(** The bookkeeping of PSI in terms of the rows given. *)
From Coq Require Import ZArith QArith List Bool Lia.
From Verif Require Import Prelude Prelude_proofs DataPrep_model DataPrep_spec DataPrep_proofs DataPrep_main Psi_model Psi_spec Psi_proofs Psi_main Recommend_model Recommend_spec Full_spec Full_rec.
From Verif Require Recommend_main.
Import ListNotations.
Open Scope Z_scope.

Lemma svd_train_iff rank data : (exists st, svd_train rank data = Ok st) <-> trainable rank data.
Proof.
  unfold svd_train, trainable. destruct (reindex_ok data) as [df [ms [E [MU [MI F]]]]]. rewrite E. cbn [bind].
  destruct data as [|r0 data0].
  - inversion F; subst. split; [intros [st H]; discriminate|]. unfold n_users_in. cbn. lia.
  - remember (r0 :: data0) as data eqn:Ed. assert (NE : data <> []) by congruence.
    assert (BU : bij (m_users ms) 0) by (rewrite MU; apply get_bij_iff, unique_NoDup).
    assert (BI : bij (m_items ms) 0) by (rewrite MI; apply get_bij_iff, unique_NoDup).
    assert (NU : fold_left Z.max (map r_user df) (-1) + 1 = n_users_in data).
    { unfold n_users_in. rewrite <- unique_length_ndistinct, <- (n_indices_get (unique (map r_user data)) 0).
      apply (max_index_count r_user data df NE); [rewrite <- MU; auto|].
      rewrite <- MU. eapply Forall2_impl; [|exact F]. intros a b Hab; apply Hab. }
    assert (NI : fold_left Z.max (map r_item df) (-1) + 1 = n_items_in data).
    { unfold n_items_in. rewrite <- unique_length_ndistinct, <- (n_indices_get (unique (map r_item data)) 0).
      apply (max_index_count r_item data df NE); [rewrite <- MI; auto|].
      rewrite <- MI. eapply Forall2_impl; [|exact F]. intros a b Hab; apply Hab. }
    destruct df as [|d0 df0]; [subst data; inversion F|]. rewrite NU, NI.
    destruct (Z.ltb_spec 0 rank), (Z.ltb_spec rank (Z.min (n_users_in data) (n_items_in data))); cbn [andb];
      (split; [intros [st H']; try discriminate; lia|intros H'; try lia; eauto]).
Qed.

(** What an object with these attributes knows. *)
Lemma inv_counts st P : inv st P -> ps_n_users st = n_users_in P /\ ps_n_items st = n_items_in P.
Proof.
  assert (C : forall (m : mapping) (key : row -> Z), bij m 0 -> (forall k, f_of m k <> None <-> In k (map key P)) ->
     n_indices m = Z.of_nat (ndistinct (map key P))).
  { intros m key [Hn [FG R]] K. pose (idx := fun x => match f_of m x with Some j => j | None => -1 end).
    assert (Nm : n_indices m = Z.of_nat (length (zrange (Z.to_nat (n_indices m))))).
    { unfold zrange. rewrite map_length, seq_length. lia. }
    rewrite Nm. f_equal. unfold ndistinct. rewrite <- (map_length idx (nodup Z.eq_dec (map key P))).
    assert (N1 : NoDup (zrange (Z.to_nat (n_indices m)))) by (unfold zrange; apply FinFun.Injective_map_NoDup; [intros a b; lia|apply seq_NoDup]).
    assert (N2 : NoDup (map idx (nodup Z.eq_dec (map key P)))).
    { assert (ND := NoDup_nodup Z.eq_dec (map key P)).
      assert (KK : forall x, In x (nodup Z.eq_dec (map key P)) -> exists j, f_of m x = Some j).
      { intros x Hx. apply nodup_In in Hx. apply K in Hx. destruct (f_of m x); [eauto|congruence]. }
      induction (nodup Z.eq_dec (map key P)) as [|x l IH]; cbn; [constructor|]. inversion ND; subst. constructor.
      - intros Hi. apply in_map_iff in Hi as [y [E Hy]]. destruct (KK x (or_introl eq_refl)) as [j Hj].
        destruct (KK y (or_intror Hy)) as [j' Hj']. unfold idx in E. rewrite Hj, Hj' in E. subst.
        apply FG in Hj. apply FG in Hj'. assert (x = y) by congruence. subst. contradiction.
      - apply IH; auto. intros y Hy. apply KK. now right. }
    apply Nat.le_antisymm; apply NoDup_incl_length; auto; intros j Hj.
    - unfold zrange in Hj. apply in_map_iff in Hj as [i [E Hi]]. apply in_seq in Hi.
      destruct (proj2 (R j)) as [x Hx]; [lia|]. apply FG in Hx. apply in_map_iff. exists x. unfold idx. rewrite Hx.
      split; auto. apply nodup_In, K. congruence.
    - apply in_map_iff in Hj as [x [E Hx]]. apply nodup_In in Hx. apply K in Hx. unfold idx in E. destruct (f_of m x) as [v|] eqn:Ev; [|congruence].
      subst v. apply FG in Ev. assert (0 <= j < 0 + n_indices m) by (apply R; eauto). unfold zrange. apply in_map_iff. exists (Z.to_nat j).
      split; [lia|]. apply in_seq. lia. }
  intros [[BU [BI [EU EI]]] [_ [_ [KU [KI _]]]]]. rewrite EU, EI. split; apply C; auto.
Qed.
Lemma inv_known st P r : inv st P -> known (ps_maps st) r = heard P r.
Proof.
  intros [_ [_ [_ [KU [KI _]]]]]. unfold known, heard. unfold fu in KU. unfold fi in KI.
  specialize (KU (r_user r)). specialize (KI (r_item r)).
  destruct (f_of (m_users (ps_maps st)) (r_user r)), (f_of (m_items (ps_maps st)) (r_item r)).
  - assert (H1 : memZ (r_user r) (map r_user P) = true) by (apply memZ_spec, KU; congruence).
    assert (H2 : memZ (r_item r) (map r_item P) = true) by (apply memZ_spec, KI; congruence). now rewrite H1, H2.
  - destruct (memZ (r_item r) (map r_item P)) eqn:H2; [|now rewrite andb_false_r]. apply memZ_spec, KI in H2. congruence.
  - destruct (memZ (r_user r) (map r_user P)) eqn:H2; [|reflexivity]. apply memZ_spec, KU in H2. congruence.
  - destruct (memZ (r_user r) (map r_user P)) eqn:H2; [|reflexivity]. apply memZ_spec, KU in H2. congruence.
Qed.
Lemma inv_unknown st P r : inv st P -> unknown_user st r = new_user P r /\ unknown_item st r = new_item P r.
Proof.
  intros [_ [_ [_ [KU [KI _]]]]]. unfold unknown_user, unknown_item, new_user, new_item.
  specialize (KU (r_user r)). specialize (KI (r_item r)). split.
  - destruct (memZ (r_user r) (map r_user P)) eqn:E.
    + apply memZ_spec, KU in E. destruct (fu st (r_user r)); [auto|congruence].
    + destruct (fu st (r_user r)); [|auto]. assert (memZ (r_user r) (map r_user P) = true) by (apply memZ_spec, KU; congruence). congruence.
  - destruct (memZ (r_item r) (map r_item P)) eqn:E.
    + apply memZ_spec, KI in E. destruct (fi st (r_item r)); [auto|congruence].
    + destruct (fi st (r_item r)); [|auto]. assert (memZ (r_item r) (map r_item P) = true) by (apply memZ_spec, KI; congruence). congruence.
Qed.
Lemma inv_brand st P c : inv st P -> (brand_ok st c <-> brand_fits P c).
Proof.
  intros I. destruct (inv_counts st P I) as [EU EI].
  assert (E1 : part_new st c = new_pairs P c).
  { apply filter_ext. intros r. destruct (inv_unknown st P r I) as [H1 H2]. rewrite ?H1, ?H2. reflexivity. }
  assert (E2 : part_new_users st c = new_users_only P c).
  { unfold part_new_users, new_users_only. rewrite E1. apply filter_ext. intros r. destruct (inv_unknown st P r I) as [H1 H2]. rewrite ?H1, ?H2. reflexivity. }
  assert (E3 : part_new_items st c = new_items_only P c).
  { unfold part_new_items, new_items_only. rewrite E1. apply filter_ext. intros r. destruct (inv_unknown st P r I) as [H1 H2]. rewrite ?H1, ?H2. reflexivity. }
  unfold brand_ok, brand_fits. rewrite E1, E2, E3, EU, EI. reflexivity.
Qed.
Lemma inv_describes {A} (st : psi_state) P (scores : Z -> res (list A)) nu ni : inv st P ->
  Z.of_nat nu = ps_n_users st -> Z.of_nat ni = ps_n_items st ->
  (forall u, 0 <= u < Z.of_nat nu -> exists s, scores u = Ok s /\ length s = ni) ->
  describes (@mkRec A (ps_maps st) nu ni (ps_history st) scores) P.
Proof.
  intros I Nu Ni Sc. pose proof (inv_aligned _ _ I) as [BU [BI [EU [EI HH]]]]. destruct I as [_ [_ [Hh [KU [KI _]]]]].
  constructor; cbn [rs_mappings rs_n_users rs_n_items rs_history rs_scores]; auto; try lia.
  - unfold wf_state. cbn [rs_mappings rs_n_users rs_n_items rs_history rs_scores]. rewrite Nu, Ni. split; auto. split.
    + intros u Hu. rewrite <- Nu in Hu. auto.
    + split.
      * intros k u H. pose proof (bij_f_nonneg _ _ _ BU H). lia.
      * intros j Hj. destruct BI as [_ [_ R]]. apply R. lia.
  - intros u j. split.
    + intros H. destruct (Recommend_main.Forall2_In_r _ _ _ _ Hh H) as [r [Hr [E1 E2]]]. exists r. auto.
    + intros [r [Hr [E1 E2]]]. destruct (Recommend_main.Forall2_In_l _ _ _ _ Hh Hr) as [[u' j'] [Hp [F1 F2]]].
      unfold fu in F1. unfold fi in F2. cbn [fst snd] in F1, F2. assert (u = u') by congruence. assert (j = j') by congruence. subst. auto.
Qed.
