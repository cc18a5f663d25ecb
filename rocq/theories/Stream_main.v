(** Proofs about the split into initial data and stream, the train/validation split and
    the users of the stability test. *)
From Coq Require Import ZArith QArith Qround List Bool Lia Lqa Sorting.Sorted Sorting.Permutation.
From Verif Require Import Prelude Prelude_proofs Stream_model Stream_spec Stream_group.
Import ListNotations.
Open Scope Z_scope.

Lemma np_unique_increasing l : increasing (np_unique l).
Proof.
  pose proof (np_unique_sorted l) as S. pose proof (np_unique_NoDup l) as N. revert S N.
  generalize (np_unique l) as k. induction 1; intro N; constructor; inversion N; subst; auto.
  - now apply IHS.
  - rewrite Forall_forall in *. intros y I. specialize (H y I). apply Z.leb_le in H.
    assert (a <> y) by congruence. lia.
Qed.

Section Groups.
  Context {A : Type} (key : A -> Z).

  Lemma groupby_fst l : map fst (groupby key l) = np_unique (map key l).
  Proof. unfold groupby. rewrite map_map. apply map_id. Qed.

  Lemma groupby_In l k g : In (k, g) (groupby key l) <-> In k (map key l) /\ g = filter (fun r => key r =? k) l.
  Proof.
    unfold groupby. rewrite in_map_iff. split.
    - intros (x & E & I). injection E as -> <-. split; auto. now apply np_unique_In.
    - intros [I ->]. exists k; split; auto. now apply np_unique_In.
  Qed.

  Lemma filter_swap (f g : A -> bool) l : filter f (filter g l) = filter g (filter f l).
  Proof. rewrite !filter_filter. apply filter_ext. intro; apply andb_comm. Qed.

  Lemma filter_partition_perm (f : A -> bool) l : Permutation (filter f l ++ filter (fun x => negb (f x)) l) l.
  Proof.
    induction l; cbn; auto. destruct (f a); cbn; [now constructor|].
    etransitivity; [symmetry; apply Permutation_middle | now constructor].
  Qed.

  Lemma keys_perm ks : NoDup ks -> forall l, (forall r, In r l -> In (key r) ks) ->
    Permutation (concat (map (fun k => filter (fun r => key r =? k) l) ks)) l.
  Proof.
    induction 1 as [|k ks N ND IH]; intros l H.
    - destruct l; [constructor|]. exfalso. apply (H a). now left.
    - cbn [map concat]. set (l' := filter (fun r => negb (key r =? k)) l).
      etransitivity; [|apply (filter_partition_perm (fun r => key r =? k))]. apply Permutation_app_head.
      fold l'. rewrite <- (IH l').
      + apply Permutation_refl'. f_equal. apply map_ext_in. intros k' I. unfold l'. rewrite filter_swap.
        symmetry. apply filter_all. intros x J. apply filter_In in J as [_ J]. apply Z.eqb_eq in J.
        destruct (Z.eqb_spec (key x) k); auto. subst. contradiction.
      + intros r I. unfold l' in I. apply filter_In in I as [I J]. apply negb_true_iff, Z.eqb_neq in J.
        destruct (H r I); [congruence|auto].
  Qed.

  Lemma groupby_perm l : Permutation (concat (map snd (groupby key l))) l.
  Proof.
    unfold groupby. rewrite map_map. cbn [snd]. apply keys_perm; [apply np_unique_NoDup|].
    intros r I. apply np_unique_In. now apply in_map.
  Qed.

  Lemma sorted_filter (R : A -> A -> Prop) f l : StronglySorted R l -> StronglySorted R (filter f l).
  Proof.
    induction 1; cbn; [constructor|]. destruct (f a); auto. constructor; auto.
    rewrite Forall_forall in *. intros x I. apply filter_In in I as [I _]. auto.
  Qed.

  Lemma keys_sorted ks : increasing ks -> forall l, (forall r, In r l -> In (key r) ks) ->
    StronglySorted (fun x y => key x <= key y) l ->
    concat (map (fun k => filter (fun r => key r =? k) l) ks) = l.
  Proof.
    induction 1 as [|k ks I IH F]; intros l H S.
    - destruct l; [reflexivity|]. exfalso. apply (H a). now left.
    - cbn [map concat]. set (l' := filter (fun r => negb (key r =? k)) l).
      assert (E : l = filter (fun r => key r =? k) l ++ l').
      { unfold l'. clear IH l'. induction S as [|a l S IHS Fa]; [reflexivity|]. cbn.
        destruct (Z.eqb_spec (key a) k) as [Ea|Na]; cbn [negb]; cbn; [f_equal; apply IHS; intros; apply H; now right|].
        assert (Hn : filter (fun r => key r =? k) l = []).
        { rewrite Forall_forall in Fa, F. destruct (filter _ l) eqn:Ef; auto. exfalso.
          assert (J : In a0 (filter (fun r => key r =? k) l)) by (rewrite Ef; now left).
          apply filter_In in J as [J1 J2]. apply Z.eqb_eq in J2. specialize (Fa a0 J1).
          destruct (H a (or_introl eq_refl)) as [|J]; [congruence|]. specialize (F _ J). lia. }
        rewrite Hn. cbn. f_equal. symmetry. apply filter_all. intros x J.
        apply negb_true_iff, Z.eqb_neq. intro Ex. assert (J' : In x (filter (fun r => key r =? k) l)).
        { apply filter_In; split; auto. now apply Z.eqb_eq. }
        rewrite Hn in J'. destruct J'. }
      etransitivity; [|symmetry; exact E]. f_equal.
      rewrite <- (IH l').
      + f_equal. apply map_ext_in. intros k' J. unfold l'. rewrite filter_swap.
        symmetry. apply filter_all. intros x J'. apply filter_In in J' as [_ J']. apply Z.eqb_eq in J'.
        rewrite Forall_forall in F. specialize (F k' J). apply negb_true_iff, Z.eqb_neq. lia.
      + intros r J. unfold l' in J. apply filter_In in J as [J J']. apply negb_true_iff, Z.eqb_neq in J'.
        destruct (H r J); [congruence|auto].
      + now apply sorted_filter.
  Qed.

  Lemma groupby_sorted l : StronglySorted (fun x y => key x <= key y) l -> concat (map snd (groupby key l)) = l.
  Proof.
    unfold groupby. rewrite map_map. cbn [snd]. apply keys_sorted; [apply np_unique_increasing|].
    intros r I. apply np_unique_In. now apply in_map.
  Qed.

  Lemma groupby_nonempty l k g : In (k, g) (groupby key l) -> g <> [].
  Proof.
    intro I. apply groupby_In in I as [I ->]. apply in_map_iff in I as (r & <- & I). intro E.
    assert (J : In r (filter (fun x => key x =? key r) l)) by (apply filter_In; split; auto; apply Z.eqb_refl).
    rewrite E in J. destruct J.
  Qed.
End Groups.

Lemma groupby_ext {A} (k1 k2 : A -> Z) l : (forall r, In r l -> k1 r = k2 r) -> groupby k1 l = groupby k2 l.
Proof.
  intro H. unfold groupby. rewrite (map_ext_in k1 k2 l H). apply map_ext. intro k. f_equal.
  apply filter_ext_in. intros r I. now rewrite (H r I).
Qed.

Lemma groupby_labelled {A} (lab : A -> Z) l :
  map (fun g => (fst g, map fst (snd g))) (groupby snd (map (fun r => (r, lab r)) l)) = groupby lab l.
Proof.
  unfold groupby. rewrite !map_map. cbn. apply map_ext. intro k. f_equal.
  induction l; cbn; auto. destruct (lab a =? k); cbn; congruence.
Qed.

Section Split.
  Context {A : Type}.
  Variables index day : A -> Z.

  Lemma stream_general (lab : A -> Z) rest left : Permutation left rest ->
    (forall r r', In r rest -> In r' rest -> day r <= day r' -> lab r <= lab r') ->
    stream_ok day rest (groupby lab left) (map (fun r => (r, lab r)) left).
  Proof.
    intros P M. split; [rewrite groupby_perm; auto|]. split; [rewrite groupby_fst; apply np_unique_increasing|].
    split; [apply groupby_nonempty|]. split.
    - intros k g k' g' r r' G G' I I' L. apply groupby_In in G as [_ ->]. apply groupby_In in G' as [_ ->].
      apply filter_In in I as [I E]. apply filter_In in I' as [I' E']. apply Z.eqb_eq in E, E'. subst.
      apply (Permutation_in _ P) in I, I'. destruct (Z_lt_le_dec (day r) (day r')); auto.
      specialize (M r' r I' I ltac:(lia)). lia.
    - intros r k. rewrite in_map_iff. split.
      + intros (x & E & I). injection E as -> <-. exists (filter (fun y => lab y =? lab r) left).
        split; [apply groupby_In; split; auto; now apply in_map|]. apply filter_In; split; auto. apply Z.eqb_refl.
      + intros (g & G & I). apply groupby_In in G as [_ ->]. apply filter_In in I as [I E]. apply Z.eqb_eq in E.
        exists r; split; congruence.
  Qed.

  Lemma dget_pairs (m : dict Z) d : In d (map fst m) -> exists g, dget d m = Some g /\ In (d, g) m.
  Proof.
    intro I. destruct (dget d m) eqn:E.
    - exists z. split; auto. now apply dget_In.
    - apply (proj1 (dget_None_notin _ _)) in E. contradiction.
  Qed.

  Lemma prepare_main sort_days data cut hm : sorts_by day sort_days ->
    exists initial stream left,
      prepare_data_for_experiment index day sort_days data cut hm = Ok (initial, stream, left) /\
      initial = filter (fun r => index r <? cut) data /\
      stream_ok day (filter (fun r => negb (index r <? cut)) data) stream left /\
      (hm <> None -> StronglySorted (fun x y => day x <= day y) (concat (map snd stream)) /\ concat (map snd stream) = map fst left) /\
      (hm = None -> forall k g, In (k, g) stream -> forall r, In r g -> day r = k).
  Proof.
    intro SD. unfold prepare_data_for_experiment. set (rest := filter (fun r => negb _) data).
    destruct hm as [hm|].
    - destruct (SD rest) as [P S]. set (left := sort_days rest) in *.
      set (counts := map _ (groupby day left)).
      assert (Ec : map fst counts = np_unique (map day left)).
      { unfold counts. rewrite map_map. cbn. change (fun x : Z * list A => fst x) with (@fst Z (list A)). apply groupby_fst. }
      assert (Inc : increasing (map fst counts)) by (rewrite Ec; apply np_unique_increasing).
      destruct (grouping_order_main counts hm Inc) as (K & B & M).
      set (m := get_date_to_group_mapping counts hm) in *.
      set (lab := fun r => match dget (day r) m with Some g => g | None => 0 end).
      assert (HL : forall r, In r left -> dget (day r) m = Some (lab r) /\ In (day r, lab r) m).
      { intros r I. destruct (dget_pairs m (day r)) as (g & E & J).
        - rewrite K, Ec. apply np_unique_In. now apply in_map.
        - unfold lab. now rewrite E. }
      rewrite (mapM_ext_Ok _ (fun r => (r, lab r))).
      2: { intros r I. destruct (HL r I) as [-> _]. reflexivity. }
      cbn [bind]. rewrite groupby_labelled.
      eexists _, _, _. split; [reflexivity|]. split; auto. split; [|split; [|congruence]].
      + apply stream_general; [now symmetry|]. intros r r' I I' L.
        apply (Permutation_in _ P) in I. apply (Permutation_in _ P) in I'.
        apply (M (day r) _ (day r')); auto; now apply HL.
      + intros _. rewrite map_map, map_id. assert (E : concat (map snd (groupby lab left)) = left).
        { apply groupby_sorted. assert (H : forall r, In r left -> In (day r, lab r) m) by (intros; now apply HL).
          revert S H. clearbody lab. clearbody m. clear -M. clearbody left. induction 1 as [|a l S IH F]; intro H; constructor.
          - apply IH; intros; apply H; now right.
          - rewrite Forall_forall in *. intros y I. apply (M (day a) _ (day y)); auto.
            + apply H; now left.
            + apply H; now right. }
        rewrite E. auto.
    - eexists _, _, _. split; [reflexivity|]. split; auto. split; [|split; [congruence|]].
      + apply stream_general; auto.
      + intros _ k g G r I. apply groupby_In in G as [_ ->]. apply filter_In in I as [_ I]. now apply Z.eqb_eq.
  Qed.

  Lemma prepared_prefix data cut s : map index data = map Z.of_nat (seq s (length data)) ->
    filter (fun r => index r <? cut) data = firstn (Z.to_nat (cut - Z.of_nat s)) data /\
    filter (fun r => negb (index r <? cut)) data = skipn (Z.to_nat (cut - Z.of_nat s)) data.
  Proof.
    revert s; induction data as [|r data IH]; intros s E; cbn in *.
    - now rewrite firstn_nil, skipn_nil.
    - injection E as E1 E2. specialize (IH (S s) E2). rewrite E1.
      destruct (Z.ltb_spec (Z.of_nat s) cut) as [L|L]; cbn [negb].
      + replace (Z.to_nat (cut - Z.of_nat s)) with (S (Z.to_nat (cut - Z.of_nat (S s)))) by lia.
        destruct IH as [I1 I2]. cbn. split; [f_equal|]; auto.
      + replace (Z.to_nat (cut - Z.of_nat s)) with 0%nat by lia.
        replace (Z.to_nat (cut - Z.of_nat (S s))) with 0%nat in IH by lia. destruct IH as [I1 I2].
        cbn in *. split; auto. now f_equal.
  Qed.

  Lemma prepare_time_main sort_days data cut hm : sorts_by day sort_days ->
    map index data = zrange (length data) -> StronglySorted (fun x y => day x <= day y) data ->
    exists initial stream left,
      prepare_data_for_experiment index day sort_days data cut hm = Ok (initial, stream, left) /\
      initial = firstn (Z.to_nat cut) data /\
      Permutation (concat (map snd stream)) (skipn (Z.to_nat cut) data) /\
      (forall r k g r', In r initial -> In (k, g) stream -> In r' g -> day r <= day r').
  Proof.
    intros SD Ix S. destruct (prepare_main sort_days data cut hm SD) as (i & st & lf & E & Ei & OK & _).
    destruct (prepared_prefix data cut 0 Ix) as [P1 P2]. rewrite Z.sub_0_r in *.
    exists i, st, lf. split; auto. split; [congruence|]. destruct OK as (Pm & _). rewrite P2 in Pm. split; auto.
    intros r k g r' I G I'. rewrite Ei, P1 in I.
    assert (J : In r' (skipn (Z.to_nat cut) data)).
    { apply (Permutation_in _ Pm). apply in_concat. exists g. split; auto. now apply (in_map snd _ (k, g)). }
    rewrite <- (firstn_skipn (Z.to_nat cut) data) in S.
    apply StronglySorted_app_inv in S as (_ & _ & H). auto.
  Qed.

  (** Train/validation split. *)
  Lemma nearest_near x : (inject_Z (nearest x) - (1 # 2) <= x <= inject_Z (nearest x) + (1 # 2))%Q.
  Proof.
    unfold nearest. pose proof (Qfloor_le x) as L. pose proof (Qlt_floor x) as U. rewrite inject_Z_plus in U.
    change (inject_Z 1) with 1%Q in U.
    destruct (Qcompare_spec (x - inject_Z (Qfloor x)) (1 # 2)).
    - destruct (Z.even _); [lra|]. rewrite inject_Z_plus. change (inject_Z 1) with 1%Q. lra.
    - lra.
    - rewrite inject_Z_plus. change (inject_Z 1) with 1%Q. lra.
  Qed.

  Lemma nearest_range x (n : Z) : (0 <= x)%Q -> (x <= inject_Z n)%Q -> 0 <= nearest x <= n.
  Proof.
    intros Lo Hi. assert (F0 : 0 <= Qfloor x) by (rewrite <- (Qfloor_Z 0); apply Qfloor_resp_le; exact Lo).
    assert (F1 : Qfloor x <= n) by (rewrite <- (Qfloor_Z n); apply Qfloor_resp_le; exact Hi).
    unfold nearest. pose proof (Qfloor_le x) as L.
    assert (Top : Qfloor x = n -> Qcompare (x - inject_Z (Qfloor x)) (1 # 2) = Lt).
    { intro E. apply (proj1 (Qlt_alt _ _)). rewrite E in *. lra. }
    destruct (Z.eq_dec (Qfloor x) n) as [E|N]; [rewrite (Top E); lia|].
    destruct (Qcompare _ _); try lia. destruct (Z.even _); lia.
  Qed.

  Lemma sorted_order (l : list Z) k x : StronglySorted (fun a b => Z.leb a b = true) l -> nth_error l k = Some x ->
    (length (filter (fun y => (y <? x)%Z) l) <= k < length (filter (fun y => (y <=? x)%Z) l))%nat.
  Proof.
    intros S; revert k; induction S as [|a l S IH F]; intros k E; [destruct k; discriminate|].
    rewrite Forall_forall in F. destruct k as [|k]; cbn in E.
    - injection E as ->. cbn. rewrite Z.ltb_irrefl, Z.leb_refl. cbn. split; [|lia].
      assert (H : filter (fun y => (y <? x)%Z) l = []).
      { destruct (filter _ l) eqn:Ef; auto. exfalso. assert (J : In z (filter (fun y => (y <? x)%Z) l)) by (rewrite Ef; now left).
        apply filter_In in J as [J1 J2]. apply Z.ltb_lt in J2. specialize (F z J1). apply Z.leb_le in F. lia. }
      rewrite H. cbn. lia.
    - assert (I := nth_error_In _ _ E). specialize (IH k E). specialize (F x I). cbn. rewrite F. cbn.
      destruct (a <? x); cbn; lia.
  Qed.

  Lemma filter_perm_length (f : Z -> bool) l l' : Permutation l l' -> length (filter f l) = length (filter f l').
  Proof.
    induction 1; cbn; auto; try congruence.
    - destruct (f x); cbn; congruence.
    - destruct (f x), (f y); reflexivity.
  Qed.

  Lemma quantile_main values q : values <> [] -> (0 <= q)%Q -> (q <= 1)%Q ->
    exists k pivot, quantile values q = Some pivot /\ order_statistic values k pivot /\
      (inject_Z (Z.of_nat k) - (1 # 2) <= inject_Z (Z.of_nat (length values) - 1) * q
       <= inject_Z (Z.of_nat k) + (1 # 2))%Q.
  Proof.
    intros N Q0 Q1. unfold quantile. set (n := Z.of_nat (length values) - 1). set (x := (inject_Z n * q)%Q).
    assert (Hn : 0 <= n) by (unfold n; destruct values; [congruence|cbn [length]; lia]).
    assert (Hn' : (0 <= inject_Z n)%Q) by (change 0%Q with (inject_Z 0); now rewrite <- Zle_Qle).
    assert (R : 0 <= nearest x <= n).
    { apply nearest_range; unfold x; [nra|]. nra. }
    set (l := sort_stable Z.leb values). assert (P := sort_stable_perm Z.leb values). fold l in P.
    assert (Len := Permutation_length P).
    destruct (nth_error l (Z.to_nat (nearest x))) as [pivot|] eqn:E.
    2: { exfalso. apply nth_error_None in E. unfold n in R. lia. }
    exists (Z.to_nat (nearest x)), pivot. split; auto.
    assert (S : StronglySorted (fun a b => Z.leb a b = true) l) by (apply sort_stable_sorted; [apply Zleb_total | apply Zleb_trans]).
    split.
    - split; [apply (Permutation_in _ (Permutation_sym P)); eapply nth_error_In; eauto|].
      rewrite !(filter_perm_length _ _ _ P). now apply sorted_order.
    - rewrite Z2Nat.id by lia. apply nearest_near.
  Qed.

  Lemma split_main (data : list A) q :
    (data <> [] -> (0 <= q)%Q -> (q <= 1)%Q ->
     exists k pivot, order_statistic (map day data) k pivot /\
       (inject_Z (Z.of_nat k) - (1 # 2) <= inject_Z (Z.of_nat (length data) - 1) * q
        <= inject_Z (Z.of_nat k) + (1 # 2))%Q /\
       train_test_split day data q =
         Ok (filter (fun r => day r <? pivot) data, filter (fun r => pivot <=? day r) data) /\
       (length (filter (fun r => (day r <? pivot)%Z) data) <= k)%nat /\
       filter (fun r => pivot <=? day r) data <> []) /\
    ((0 <= q)%Q -> (q <= 1)%Q -> data = [] -> train_test_split day data q = Ok ([], [])) /\
    (~ ((0 <= q)%Q /\ (q <= 1)%Q) -> train_test_split day data q = Err ValueError).
  Proof.
    unfold train_test_split. split; [|split].
    - intros N Q0 Q1. assert (N' : map day data <> []) by (destruct data; [congruence|discriminate]).
      destruct (quantile_main _ q N' Q0 Q1) as (k & pivot & E & O & B). rewrite map_length in B.
      exists k, pivot. split; auto. split; auto.
      rewrite (proj2 (Qle_bool_iff _ _) Q0), (proj2 (Qle_bool_iff _ _) Q1). cbn [andb]. rewrite E.
      assert (Ef : filter (fun r => negb (pivot <=? day r)) data = filter (fun r => day r <? pivot) data).
      { apply filter_ext. intro r. now rewrite Z.leb_antisym, negb_involutive. }
      split; [now rewrite Ef|]. destruct O as (I & O & _). split.
      + assert (C : forall l : list A, length (filter (fun r => day r <? pivot) l) = length (filter (fun y => y <? pivot) (map day l))).
        { induction l; cbn; auto. destruct (day a <? pivot); cbn; auto. }
        now rewrite C.
      + apply in_map_iff in I as (r & Er & I). intro H.
        assert (J : In r (filter (fun r => pivot <=? day r) data)) by (apply filter_In; split; auto; apply Z.leb_le; lia).
        rewrite H in J. destruct J.
    - intros Q0 Q1 ->. rewrite (proj2 (Qle_bool_iff _ _) Q0), (proj2 (Qle_bool_iff _ _) Q1). cbn [andb map].
      unfold quantile. cbn [sort_stable]. destruct (Z.to_nat _); reflexivity.
    - intro H. destruct (Qle_bool 0 q && Qle_bool q 1) eqn:E; auto. exfalso. apply H.
      apply andb_true_iff in E as [E1 E2]. now split; apply Qle_bool_iff.
  Qed.
End Split.

(** Users of the stability test. *)
Lemma nodup_unique_perm l : Permutation (nodup Z.eq_dec l) (unique l).
Proof.
  apply NoDup_Permutation; [apply NoDup_nodup | apply unique_NoDup |]. intro x. now rewrite nodup_In, unique_In.
Qed.

Lemma firstn_sorted_In (l : list Z) n d : increasing l ->
  (In d (firstn n l) <-> In d l /\ (length (filter (fun x => (x <? d)%Z) l) < n)%nat).
Proof.
  intro S. revert n; induction S as [|a l S IH F]; intro n; [rewrite firstn_nil; cbn; tauto|].
  rewrite Forall_forall in F. destruct n as [|n]; cbn [firstn]; [split; [intros []|lia]|].
  cbn [In filter]. rewrite IH. destruct (Z.ltb_spec a d) as [L|L]; cbn [length].
  - split; [intros [->|[I H]]; [lia|split; auto; lia]|]. intros [[->|I] H]; [lia|]. right. split; auto. lia.
  - assert (H : d <> a -> ~ In d l) by (intros N I; specialize (F d I); lia).
    destruct (Z.eq_dec d a) as [->|N].
    + split; [|auto]. intros _. split; auto.
      assert (E : filter (fun x => (x <? a)%Z) l = []).
      { destruct (filter _ l) eqn:Ef; auto. exfalso. assert (J : In z (filter (fun y => (y <? a)%Z) l)) by (rewrite Ef; now left).
        apply filter_In in J as [J1 J2]. apply Z.ltb_lt in J2. specialize (F z J1). lia. }
      rewrite E. cbn. lia.
    + specialize (H N). split; [intros [->|[I _]]; [congruence|tauto]|]. intros [[->|I] _]; [congruence|tauto].
Qed.

Lemma early_iff n left d :
  In d (firstn n (sort_stable Z.leb (unique (map snd left)))) <-> early n left d.
Proof.
  change (sort_stable Z.leb (unique (map snd left))) with (np_unique (map snd left)).
  rewrite firstn_sorted_In by apply np_unique_increasing. unfold early. rewrite np_unique_In.
  assert (P : Permutation (np_unique (map snd left)) (nodup Z.eq_dec (map snd left))).
  { rewrite nodup_unique_perm. symmetry. apply sort_stable_perm. }
  rewrite (filter_perm_length _ _ _ P). tauto.
Qed.

Lemma sorted_lastn {A} (key : A -> Z) n l x y : StronglySorted (fun a b => key a <= key b) l ->
  In x l -> ~ In x (lastn n l) -> In y (lastn n l) -> key x <= key y.
Proof.
  intros S I N J. destruct (lastn_suffix n l) as (p & E). rewrite E in S, I.
  apply StronglySorted_app_inv in S as (_ & _ & H). apply H; auto. apply in_app_iff in I; tauto.
Qed.

Lemma stability_main sort_counts initial_users left n : sorts_by snd sort_counts ->
  let res := get_users_stability sort_counts initial_users left n in
  NoDup res /\ (length res <= 50)%nat /\
  (forall u, In u res -> eligible n initial_users left u) /\
  (forall u v ku kv, eligible n initial_users left u -> ~ In u res -> In v res ->
     active_days n left u ku -> active_days n left v kv -> (ku <= kv)%nat) /\
  ((exists u, eligible n initial_users left u /\ ~ In u res) -> length res = 50%nat).
Proof.
  intros SC res. unfold get_users_stability in res.
  set (days := firstn n _) in res. set (masked := filter _ left) in res. set (counts := map _ (groupby fst masked)) in res.
  destruct (SC counts) as [P S]. set (sorted := sort_counts counts) in *.
  assert (Hm : forall u d, In (u, d) masked <-> In (u, d) left /\ early n left d /\ In u initial_users).
  { intros u d. unfold masked. rewrite filter_In, andb_true_iff. cbn.
    rewrite !memZ_spec, unique_In. unfold days. rewrite early_iff. tauto. }
  assert (He : forall u, In u (map fst masked) <-> eligible n initial_users left u).
  { intro u. rewrite in_map_iff. unfold eligible. split.
    - intros ([u' d] & E & I). cbn in E; subst. apply Hm in I. split; [tauto|]. exists d. tauto.
    - intros [Iu (d & I & E)]. exists (u, d). split; auto. apply Hm. tauto. }
  assert (Kc : map fst counts = np_unique (map fst masked)).
  { unfold counts. rewrite map_map. cbn. apply groupby_fst. }
  assert (Hc : forall u c, In (u, c) counts -> exists k, c = Z.of_nat k /\ active_days n left u k /\ eligible n initial_users left u).
  { intros u c I. unfold counts in I. apply in_map_iff in I as ([u' g] & E & I). cbn in E. injection E as -> <-.
    apply groupby_In in I as [I ->]. eexists. split; [reflexivity|]. split; [|now apply He].
    exists (unique (map snd (filter (fun r => fst r =? u) masked))). split; [apply unique_NoDup|]. split; auto.
    intro d. rewrite unique_In, in_map_iff. apply He in I. split.
    - intros ([u' d'] & E & J). cbn in E; subst. apply filter_In in J as [J E]. cbn in E. apply Z.eqb_eq in E; subst.
      apply Hm in J. tauto.
    - intros [J E]. exists (u, d). split; auto. apply filter_In. split; [apply Hm; destruct I; tauto|]. apply Z.eqb_refl. }
  assert (Uniq : forall u k k', active_days n left u k -> active_days n left u k' -> k = k').
  { intros u k k' (ds & N1 & <- & H1) (ds' & N2 & <- & H2). apply Permutation_length, NoDup_Permutation; auto.
    intro d. rewrite H1, H2. tauto. }
  assert (Ns : NoDup (map fst sorted)).
  { apply (Permutation_NoDup (Permutation_map fst P)). rewrite Kc. apply np_unique_NoDup. }
  destruct (lastn_suffix 50 sorted) as (pre & Es).
  split; [unfold res; rewrite Es, map_app in Ns; now apply NoDup_app_inv in Ns|].
  split; [unfold res; rewrite map_length, lastn_length; lia|].
  split; [|split].
  - intros u I. unfold res in I. apply in_map_iff in I as ([u' c] & E & I). cbn in E; subst.
    assert (J : In (u, c) sorted) by (rewrite Es; apply in_or_app; now right).
    apply (Permutation_in _ (Permutation_sym P)) in J. destruct (Hc _ _ J) as (k & _ & _ & H). exact H.
  - intros u v ku kv Eu Nu Iv Au Av. unfold res in *. apply in_map_iff in Iv as ([v' cv] & E & Iv). cbn in E; subst.
    assert (Ju : exists cu, In (u, cu) sorted).
    { apply He in Eu. apply np_unique_In in Eu. rewrite <- Kc in Eu. apply in_map_iff in Eu as ([u' cu] & E & J).
      cbn in E; subst. exists cu. now apply (Permutation_in _ P). }
    destruct Ju as (cu & Ju). assert (Nu' : ~ In (u, cu) (lastn 50 sorted)).
    { intro J. apply Nu. now apply (in_map fst _ (u, cu)). }
    pose proof (sorted_lastn snd 50 sorted _ _ S Ju Nu' Iv) as L. cbn in L.
    assert (Jv : In (v, cv) sorted) by (rewrite Es; apply in_or_app; now right).
    apply (Permutation_in _ (Permutation_sym P)) in Ju, Jv.
    destruct (Hc _ _ Ju) as (k1 & -> & A1 & _). destruct (Hc _ _ Jv) as (k2 & -> & A2 & _).
    rewrite (Uniq _ _ _ Au A1), (Uniq _ _ _ Av A2). lia.
  - intros (u & Eu & Nu). unfold res in *. rewrite map_length, lastn_length.
    destruct (le_lt_dec 50 (length sorted)) as [L|L]; [lia|]. exfalso. apply Nu.
    rewrite lastn_all by lia. apply (Permutation_in _ (Permutation_map fst P)). rewrite Kc. apply np_unique_In. now apply He.
Qed.

Lemma grouping_refuted_main :
  exists (counts : list (Z * Z)) (hm : Z),
    increasing (map fst counts) /\ (forall x, In x counts -> 0 < snd x) /\ hm < total counts /\
    let m := get_date_to_group_mapping counts hm in
    m = [(1, 1); (2, 1); (3, 2)] /\ total (members counts m 1) = 6 /\ total (members counts m 2) = 1 /\ hm = 5.
Proof.
  exists [(1, 3); (2, 3); (3, 1)], 5. split; [repeat constructor|].
  split; [intros x [<-|[<-|[<-|[]]]]; reflexivity|]. repeat split.
Qed.
