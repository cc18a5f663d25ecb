(** Proofs about whole experiments on a prepared table. *)
From Coq Require Import ZArith QArith List Bool Lia Sorting.Sorted Sorting.Permutation.
From Verif Require Import Prelude Prelude_proofs DataPrep_model History_model Tirec_model Tables_model Stream_model Stream_spec Stream_group Stream_main
  Tensor_model Matrix_model LinAlg_model Dynamic_model Dynamic_spec Dynamic_main Full_spec Seqx_spec Tdx_spec Pipe_model Pipe_spec.
From Verif Require Retrain_main.
Import ListNotations.
Open Scope Z_scope.

Lemma increasing_rank l t k : increasing l -> nth_error l t = Some k -> length (filter (fun x => x <? k) l) = t.
Proof.
  intros S. revert t. induction S as [|a l S IH F]; intros [|t] H; cbn in H; try discriminate.
  - injection H as ->. cbn. rewrite Z.ltb_irrefl. rewrite Forall_forall in F.
    assert (E : filter (fun x => x <? k) l = []).
    { clear -F. induction l as [|b l IH]; cbn; auto. destruct (Z.ltb_spec b k) as [L|L].
      - specialize (F b (or_introl eq_refl)). lia.
      - apply IH. intros x I. apply F. now right. }
    now rewrite E.
  - cbn. rewrite Forall_forall in F. assert (a < k) by (apply F; eapply nth_error_In; eauto).
    destruct (Z.ltb_spec a k); [|lia]. cbn. now rewrite (IH t H).
Qed.

Section Users.
  Variables (rest : list trow) (stream : list (Z * list trow)) (left : list (trow * Z)).
  Hypothesis OK : stream_ok tb_day rest stream left.
  Notation pairs := (map (fun x : trow * Z => (tb_user (fst x), snd x)) left).
  Notation groups := (map snd stream).

  Lemma labels_perm : Permutation (nodup Z.eq_dec (map snd pairs)) (map fst stream).
  Proof.
    destruct OK as (_ & I & N & _ & L). apply NoDup_Permutation; [apply NoDup_nodup|now apply increasing_NoDup|].
    intro k. rewrite nodup_In, map_map, !in_map_iff. cbn [snd fst]. split.
    - intros ((r & k') & <- & H). apply L in H as (g & H & _). exists (k', g). auto.
    - intros ((k' & g) & <- & H). destruct g as [|r g0]; [exfalso; exact (N _ _ H eq_refl)|].
      exists (r, k'). split; auto. apply L. exists (r :: g0). split; auto. now left.
  Qed.

  Lemma early_group n k : early n pairs k <-> exists t, (t < n)%nat /\ nth_error (map fst stream) t = Some k.
  Proof.
    destruct OK as (_ & I & _). unfold early.
    rewrite (filter_perm_length _ _ _ labels_perm). split.
    - intros (H & L). assert (H1 : In k (map fst stream)).
      { apply (Permutation_in _ labels_perm). now apply nodup_In. }
      apply In_nth_error in H1 as (t & E). exists t. split; auto. now rewrite (increasing_rank _ _ _ I E) in L.
    - intros (t & Lt & E). split.
      + apply (nodup_In Z.eq_dec). apply (Permutation_in _ (Permutation_sym labels_perm)). eapply nth_error_In; eauto.
      + now rewrite (increasing_rank _ _ _ I E).
  Qed.

  Lemma label_group k g g' : In (k, g) stream -> In (k, g') stream -> g = g'.
  Proof.
    destruct OK as (_ & I & _). apply increasing_NoDup in I. clear OK left.
    revert I. induction stream as [|(a, b) s IH]; cbn; [tauto|].
    intros N H1 H2. inversion N as [|? ? N1 N2]; subst.
    assert (X : forall g0, In (a, g0) s -> False).
    { intros g0 H. apply N1. apply in_map_iff. exists (a, g0). auto. }
    destruct H1 as [E1|H1], H2 as [E2|H2].
    - congruence.
    - injection E1 as -> ->. destruct (X _ H2).
    - injection E2 as -> ->. destruct (X _ H1).
    - eauto.
  Qed.

  Lemma eligible_returns n initial users : (forall u, In u users <-> In u (map tb_user initial)) ->
    forall u, eligible n users pairs u <-> returns n initial groups u.
  Proof.
    intros U u. unfold eligible, returns. rewrite U. destruct OK as (_ & I & N & _ & L). split; intros (H & R); split; auto.
    - destruct R as (k & H1 & H2). apply early_group in H2 as (t & Lt & E).
      apply in_map_iff in H1 as ((r & k') & E1 & H1). cbn in E1. injection E1 as <- <-.
      apply L in H1 as (g & H1 & H2). rewrite nth_error_map in E. destruct (nth_error stream t) as [(k2 & g2)|] eqn:Es; [|discriminate].
      cbn in E. injection E as ->. assert (g = g2) by (eapply label_group; eauto using nth_error_In). subst g2.
      exists t, g. rewrite nth_error_map, Es. split; auto. split; auto. now apply in_map.
    - destruct R as (t & g & Lt & E & H1). rewrite nth_error_map in E. destruct (nth_error stream t) as [(k & g2)|] eqn:Es; [|discriminate].
      cbn in E. injection E as ->. apply in_map_iff in H1 as (r & <- & H1). exists k. split.
      + apply in_map_iff. exists (r, k). split; auto. apply L. exists g. split; auto. eapply nth_error_In; eauto.
      + apply early_group. exists t. rewrite nth_error_map, Es. auto.
  Qed.

  Lemma stability_selected sort_counts n initial users : sorts_by snd sort_counts ->
    (forall u, In u users <-> In u (map tb_user initial)) ->
    selected n initial groups (get_users_stability sort_counts users pairs n).
  Proof.
    intros SC U. destruct (stability_main sort_counts users pairs n SC) as (N & L & E & _ & F). split; [exact N|]. split; [exact L|].
    assert (R := eligible_returns n initial users U). split.
    - intros u H. apply R. now apply E.
    - intros L50 u H. destruct (in_dec Z.eq_dec u (get_users_stability sort_counts users pairs n)) as [i|i]; auto.
      exfalso. rewrite F in L50; [lia|]. exists u. split; auto. now apply R.
  Qed.
End Users.

Lemma returns_min n initial groups u : returns n initial groups u <-> returns (Nat.min n (length groups)) initial groups u.
Proof.
  unfold returns. split; intros (H & t & g & Lt & E & I); split; auto; exists t, g; split; auto.
  - assert (t < length groups)%nat by (apply nth_error_Some; congruence). lia.
  - lia.
Qed.
Lemma selected_min n initial groups test : selected n initial groups test <-> selected (Nat.min n (length groups)) initial groups test.
Proof.
  unfold selected. split; intros (A & B & C & D); (split; [exact A|split; [exact B|split]]).
  - intros u H. apply (proj1 (returns_min _ _ _ _)). auto.
  - intros H u R. apply D; auto. apply (proj2 (returns_min _ _ _ _)). auto.
  - intros u H. apply (proj2 (returns_min _ _ _ _)). auto.
  - intros H u R. apply D; auto. apply (proj1 (returns_min _ _ _ _)). auto.
Qed.

(** A testable first group has a returning user. *)
Lemma selected_nonempty n initial groups test rows g : selected n initial groups test -> (0 < n)%nat -> nth_error groups 0 = Some g ->
  (forall u, In u (map r_user rows) -> In u (map tb_user initial)) ->
  (exists r, In r (map content g) /\ heard rows r = true) -> test <> [].
Proof.
  intros (_ & _ & _ & F) Ln E U (r & I & Hr) ->. apply in_map_iff in I as (x & <- & I).
  apply (F ltac:(cbn; lia) (tb_user x)). split.
  - apply U. unfold heard in Hr. apply andb_prop in Hr as (Hr & _). apply memZ_spec in Hr. exact Hr.
  - exists 0%nat, g. split; auto. split; auto. now apply in_map.
Qed.

Section Pipe.
  Context {S D A V T : Type} (zero : A) (sub : A -> A -> A).
  Variable norm : mat A -> V.
  Variable div : V -> V -> V.
  Variable minus_one : V.
  Variable clock : nat -> T.
  Variable m : api S D A.
  Variable grow : D -> list row -> res D.
  Variable chunk_mode : bool.
  Variable entry : list row -> res D.
  Variable users_of : D -> list Z.
  Variable sort_days : list trow -> list trow.
  Variable sort_counts : list (Z * Z) -> list (Z * Z).
  Hypothesis SD : sorts_by tb_day sort_days.
  Hypothesis SC : sorts_by snd sort_counts.
  Hypothesis KU : forall rows d, entry rows = Ok d -> forall u, In u (users_of d) <-> In u (map r_user rows).
  Notation full := (full_dynamical_experiment zero sub norm div minus_one clock m grow chunk_mode entry users_of sort_days sort_counts).
  Notation run := (dynamical_experiment zero sub norm div minus_one clock m grow).

  Lemma users_content l : map r_user (map content l) = map tb_user l.
  Proof. rewrite map_map. reflexivity. Qed.

  Lemma n_steps_pos hm n : 0 < hm -> n_steps hm n = Nat.min (Z.to_nat hm) n.
  Proof. intro H. unfold n_steps. destruct (Z.ltb_spec 0 hm); [auto|lia]. Qed.

  (** Unordered tables first. *)
  Lemma pipe_parts data cut hm_min how_many st0 : 0 < how_many ->
    exists initial stream left, prepare_data_for_experiment tb_index tb_day sort_days data cut hm_min = Ok (initial, stream, left) /\
      initial = filter (fun r => tb_index r <? cut) data /\
      splits (filter (fun r => negb (tb_index r <? cut)) data) (map snd stream) /\
      match entry (map content initial) with
      | Err e => full data cut hm_min how_many st0 = Err e
      | Ok d => let test := stability_users users_of sort_counts d left how_many in
          selected (n_steps how_many (length stream)) initial (map snd stream) test /\
          full data cut hm_min how_many st0 = run test chunk_mode how_many st0 d (map (fun g => map content (snd g)) stream)
      end.
  Proof.
    intro HM. destruct (prepare_main tb_index tb_day sort_days data cut hm_min SD) as (initial & stream & left & E & E1 & OK & _).
    exists initial, stream, left. split; [exact E|]. split; [exact E1|]. split.
    - destruct OK as (P & I & N & O & _). split; [exact P|]. split.
      + apply Forall_forall. intros g H. apply in_map_iff in H as ((k & g') & <- & H). now apply (N k).
      + intros t t' g g' r r' Lt H1 H2 I1 I2. rewrite nth_error_map in H1, H2.
        destruct (nth_error stream t) as [(k & g1)|] eqn:E2; [|discriminate].
        destruct (nth_error stream t') as [(k' & g2)|] eqn:E3; [|discriminate].
        cbn in H1, H2. injection H1 as ->. injection H2 as ->.
        apply (O k g k' g'); eauto using nth_error_In.
        assert (F1 : nth_error (map fst stream) t = Some k) by (rewrite nth_error_map, E2; auto).
        assert (F2 : nth_error (map fst stream) t' = Some k') by (rewrite nth_error_map, E3; auto).
        assert (R1 := increasing_rank _ _ _ I F1). assert (R2 := increasing_rank _ _ _ I F2).
        destruct (Z.lt_trichotomy k k') as [?|[?|HK]]; auto; exfalso.
        * subst k'. lia.
        * assert (X : (length (filter (fun x => (x <? k')%Z) (map fst stream)) <= length (filter (fun x => (x <? k)%Z) (map fst stream)))%nat).
          { clear -HK. induction (map fst stream) as [|a l IH]; cbn; auto.
            destruct (Z.ltb_spec a k'), (Z.ltb_spec a k); cbn; lia. }
          lia.
    - unfold full_dynamical_experiment. rewrite E. cbn [bind]. destruct (entry (map content initial)) as [d|e] eqn:Ed; cbn [bind]; [|reflexivity].
      split; [|reflexivity]. unfold stability_users. rewrite (n_steps_pos _ _ HM).
      rewrite <- (map_length snd stream). apply (proj1 (selected_min _ _ _ _)).
      eapply stability_selected; eauto. intro u. rewrite (KU _ _ Ed u), users_content. tauto.
  Qed.

  Lemma pipe_main data cut hm_min how_many st0 : 0 < how_many -> in_day_order data ->
    let initial := firstn (Z.to_nat cut) data in
    exists stream left, prepare_data_for_experiment tb_index tb_day sort_days data cut hm_min = Ok (initial, stream, left) /\
      let groups := map snd stream in
      splits (skipn (Z.to_nat cut) data) groups /\
      (forall r g r', In r initial -> In g groups -> In r' g -> tb_day r <= tb_day r') /\
      match entry (map content initial) with
      | Err e => full data cut hm_min how_many st0 = Err e
      | Ok d => let test := stability_users users_of sort_counts d left how_many in
          selected (n_steps how_many (length groups)) initial groups test /\
          full data cut hm_min how_many st0 = run test chunk_mode how_many st0 d (map (map content) groups)
      end.
  Proof.
    intros HM (HI & HS) initial. destruct (pipe_parts data cut hm_min how_many st0 HM) as (ini & stream & left & E & E1 & SP & R).
    destruct (prepare_time_main tb_index tb_day sort_days data cut hm_min SD HI HS) as (ini' & stream' & left' & E' & E1' & P & O).
    rewrite E in E'. injection E' as <- <- <-. subst ini. fold initial in E1'. rewrite E1' in *.
    exists stream, left. split; [exact E|]. intro groups. split; [|split].
    - destruct SP as (_ & SP). split; auto.
    - intros r g r' H1 H2 H3. apply in_map_iff in H2 as ((k & g') & <- & H2). exact (O _ _ _ _ H1 H2 H3).
    - destruct (entry (map content initial)) as [d|e]; auto. subst groups. rewrite map_length, map_map. exact R.
  Qed.

  (** ** What two runs share *)
  Lemma runs_agree test test' st0 initial s s' n n' H H' k :
    runs zero sub norm div minus_one m grow test chunk_mode st0 initial s n H ->
    runs zero sub norm div minus_one m grow test' chunk_mode st0 initial s' n' H' ->
    (k <= n)%nat -> (k <= n')%nat -> firstn k s = firstn k s' -> (k <= length s)%nat ->
    forall t, (t <= k)%nat -> st H t = st H' t /\ table H t = table H' t.
  Proof.
    intros (T1 & B1 & S1 & _) (T2 & B2 & S2 & _) Ln Ln' F Ls. induction t as [|t IH]; intro Lt.
    - split; congruence.
    - destruct (IH ltac:(lia)) as (I1 & I2). destruct (nth_error s t) as [c|] eqn:Ec.
      2:{ apply nth_error_None in Ec. lia. }
      assert (Ec' : nth_error s' t = Some c).
      { rewrite <- (firstn_skipn k s'), nth_error_app1; rewrite <- F.
        - rewrite <- Ec. rewrite <- (firstn_skipn k s) at 2. rewrite nth_error_app1; auto. rewrite firstn_length. lia.
        - rewrite firstn_length. lia. }
      destruct (S1 t c ltac:(lia) Ec) as (_ & _ & _ & _ & U1). destruct (S2 t c ltac:(lia) Ec') as (_ & _ & _ & _ & U2).
      unfold updates in U1, U2. rewrite <- I1, <- I2 in U2. destruct chunk_mode; destruct U1 as (X1 & X2), U2 as (Y1 & Y2).
      + split; congruence.
      + assert (table H (Datatypes.S t) = table H' (Datatypes.S t)) as Q by congruence. rewrite <- Q in Y2. split; congruence.
  Qed.

  Lemma series_firstn {X} n k (f : nat -> X) : (k <= n)%nat -> firstn k (series n f) = series k f.
  Proof.
    intro L. unfold series. rewrite firstn_map. f_equal.
    replace n with (k + (n - k))%nat by lia. rewrite seq_app, firstn_app, seq_length, Nat.sub_diag. cbn [firstn].
    rewrite app_nil_r, firstn_all2; auto. rewrite seq_length. lia.
  Qed.

  Lemma experiments_agree test test' hm hm' st0 initial s s' dyn dyn' k :
    run test chunk_mode hm st0 initial s = Ok dyn -> run test' chunk_mode hm' st0 initial s' = Ok dyn' ->
    (k <= n_steps hm (length s))%nat -> (k <= n_steps hm' (length s'))%nat -> firstn k s = firstn k s' ->
    firstn k (d_hr dyn) = firstn k (d_hr dyn') /\ firstn k (d_mrr dyn) = firstn k (d_mrr dyn') /\
    firstn (k - 1) (rnd_users dyn) = firstn (k - 1) (rnd_users dyn') /\ firstn (k - 1) (rnd_items dyn) = firstn (k - 1) (rnd_items dyn') /\
    firstn k (nd_users dyn) = firstn k (nd_users dyn') /\ firstn k (nd_items dyn) = firstn k (nd_items dyn').
  Proof.
    intros E E' L L' F.
    apply (proj1 (experiment_main _ _ _ _ _ _ _ _ _ _ _ _ _ _ _)) in E as (H & R & ->).
    apply (proj1 (experiment_main _ _ _ _ _ _ _ _ _ _ _ _ _ _ _)) in E' as (H' & R' & ->).
    assert (Ls : (k <= length s)%nat) by (unfold n_steps in L; destruct (0 <? hm); lia).
    assert (AG := runs_agree _ _ _ _ _ _ _ _ _ _ _ R R' L L' F Ls).
    assert (ST : forall t, (t < k)%nat -> hits H t = hits H' t /\ ranks H t = ranks H' t /\ emb_u H t = emb_u H' t /\ emb_v H t = emb_v H' t).
    { intros t Lt. destruct (AG t ltac:(lia)) as (I1 & _). destruct (nth_error s t) as [c|] eqn:Ec.
      2:{ apply nth_error_None in Ec. lia. }
      assert (Ec' : nth_error s' t = Some c).
      { rewrite <- (firstn_skipn k s'), nth_error_app1; rewrite <- F.
        - rewrite <- Ec. rewrite <- (firstn_skipn k s) at 2. rewrite nth_error_app1; auto. rewrite firstn_length. lia.
        - rewrite firstn_length. lia. }
      destruct R as (_ & _ & S1 & _), R' as (_ & _ & S2 & _).
      destruct (S1 t c ltac:(lia) Ec) as ((r1 & A1 & A2 & A3) & _ & U1 & V1 & _).
      destruct (S2 t c ltac:(lia) Ec') as ((r2 & B1 & B2 & B3) & _ & U2 & V2 & _).
      rewrite <- I1 in B1, B2, B3, U2, V2. assert (r1 = r2) by congruence. subst r2. repeat split; congruence. }
    assert (CH : forall t, (Datatypes.S t < k)%nat -> du H t = du H' t /\ dv H t = dv H' t).
    { intros t Lt. destruct R as (_ & _ & _ & P1), R' as (_ & _ & _ & P2).
      destruct (P1 t ltac:(lia)) as (_ & A1 & A2). destruct (P2 t ltac:(lia)) as (_ & B1 & B2).
      destruct (ST t ltac:(lia)) as (_ & _ & X1 & X2). destruct (ST (Datatypes.S t) ltac:(lia)) as (_ & _ & Y1 & Y2).
      rewrite <- X1, <- Y1 in B1. rewrite <- X2, <- Y2 in B2.
      assert (UC : forall o w x y, user_change zero sub norm div o w x -> user_change zero sub norm div o w y -> x = y).
      { intros o w x y C1 C2. apply change_compute in C1. apply change_compute in C2. congruence. }
      split; [eauto|]. unfold item_change in A2, B2. destruct ((0 <? t)%nat && (mr (emb_v H (Datatypes.S t)) <? mr (emb_v H t))%nat); [congruence|eauto]. }
    unfold reported. cbn [d_hr d_mrr rnd_users rnd_items nd_users nd_items]. rewrite !series_firstn by lia.
    repeat split; apply series_ext; intros i Li; try (destruct (ST i ltac:(lia)) as (X1 & X2 & X3 & X4); congruence);
      destruct (CH i ltac:(lia)) as (X1 & X2); congruence.
  Qed.
End Pipe.

(** ** Days that both tables have *)
Lemma increasing_ext l1 l2 : increasing l1 -> increasing l2 -> (forall x, In x l1 <-> In x l2) -> l1 = l2.
Proof.
  intro S1. revert l2. induction S1 as [|a l1 S1 IH F1]; intros l2 S2 H.
  - destruct l2 as [|b l2]; auto. destruct (proj2 (H b) (or_introl eq_refl)).
  - destruct S2 as [|b l2 S2 F2]; [destruct (proj1 (H a) (or_introl eq_refl))|].
    rewrite Forall_forall in F1, F2.
    assert (a = b).
    { destruct (proj1 (H a) (or_introl eq_refl)) as [|I1]; auto. destruct (proj2 (H b) (or_introl eq_refl)) as [|I2]; auto.
      specialize (F1 _ I2). specialize (F2 _ I1). lia. }
    subst b. f_equal. apply IH; auto. intro x. split; intro I.
    + destruct (proj1 (H x) (or_intror I)); auto. subst x. specialize (F1 _ I). lia.
    + destruct (proj2 (H x) (or_intror I)); auto. subst x. specialize (F2 _ I). lia.
Qed.
Lemma filter_nothing {B} (f : B -> bool) l : (forall x, In x l -> f x = false) -> filter f l = [].
Proof. intro H. induction l as [|a l IH]; cbn; auto. rewrite (H a (or_introl eq_refl)). apply IH. intros x I. apply H. now right. Qed.
Lemma groupby_app {B} (key : B -> Z) l1 l2 : (forall x y, In x l1 -> In y l2 -> key x < key y) ->
  groupby key (l1 ++ l2) = groupby key l1 ++ groupby key l2.
Proof.
  intro H. unfold groupby.
  assert (E : np_unique (map key (l1 ++ l2)) = np_unique (map key l1) ++ np_unique (map key l2)).
  { apply increasing_ext; [apply np_unique_increasing| |].
    - apply StronglySorted_app; try apply np_unique_increasing.
      intros x y I1 I2. apply (proj1 (np_unique_In _ _)) in I1, I2. apply in_map_iff in I1 as (a & <- & I1). apply in_map_iff in I2 as (b & <- & I2). auto.
    - intro x. rewrite in_app_iff, !np_unique_In, map_app, in_app_iff. tauto. }
  rewrite E, map_app. f_equal; apply map_ext_in; intros k I; apply (proj1 (np_unique_In _ _)) in I; apply in_map_iff in I as (a & <- & I); f_equal;
    rewrite filter_app.
  - assert (Q : filter (fun r => key r =? key a) l2 = []).
    { apply filter_nothing. intros y I2. specialize (H _ _ I I2). apply Z.eqb_neq. lia. }
    now rewrite Q, app_nil_r.
  - assert (Q : filter (fun r => key r =? key a) l1 = []).
    { apply filter_nothing. intros x I2. specialize (H _ _ I2 I). apply Z.eqb_neq. lia. }
    now rewrite Q.
Qed.
Lemma groupby_days {B} (key : B -> Z) l : length (groupby key l) = length (nodup Z.eq_dec (map key l)).
Proof.
  unfold groupby. rewrite map_length. apply Permutation_length. apply NoDup_Permutation; [apply np_unique_NoDup|apply NoDup_nodup|].
  intro x. now rewrite np_unique_In, nodup_In.
Qed.

Lemma prepared_none sort_days data cut : in_day_order data ->
  prepare_data_for_experiment tb_index tb_day sort_days data cut None =
  Ok (firstn (Z.to_nat cut) data, groupby tb_day (skipn (Z.to_nat cut) data), map (fun r => (r, tb_day r)) (skipn (Z.to_nat cut) data)).
Proof.
  intros (HI & _). unfold prepare_data_for_experiment.
  destruct (prepared_prefix tb_index data cut 0 HI) as (P1 & P2). rewrite Z.sub_0_r in P1, P2. now rewrite P1, P2.
Qed.

Section Later.
  Context {S D A V T : Type} (zero : A) (sub : A -> A -> A).
  Variable norm : mat A -> V.
  Variable div : V -> V -> V.
  Variable minus_one : V.
  Variable clock : nat -> T.
  Variable m : api S D A.
  Variable grow : D -> list row -> res D.
  Variable chunk_mode : bool.
  Variable entry : list row -> res D.
  Variable users_of : D -> list Z.
  Variable sort_days : list trow -> list trow.
  Variable sort_counts : list (Z * Z) -> list (Z * Z).
  Notation full := (full_dynamical_experiment zero sub norm div minus_one clock m grow chunk_mode entry users_of sort_days sort_counts).

  Lemma later_main shared later later' cut how_many st0 dyn dyn' :
    0 < how_many -> in_day_order (shared ++ later) -> in_day_order (shared ++ later') -> (Z.to_nat cut <= length shared)%nat ->
    (forall x y, In x shared -> In y (later ++ later') -> tb_day x < tb_day y) ->
    full (shared ++ later) cut None how_many st0 = Ok dyn -> full (shared ++ later') cut None how_many st0 = Ok dyn' ->
    let k := Nat.min (Z.to_nat how_many) (length (nodup Z.eq_dec (map tb_day (skipn (Z.to_nat cut) shared)))) in
    firstn k (d_hr dyn) = firstn k (d_hr dyn') /\ firstn k (d_mrr dyn) = firstn k (d_mrr dyn') /\
    firstn (k - 1) (rnd_users dyn) = firstn (k - 1) (rnd_users dyn') /\ firstn (k - 1) (rnd_items dyn) = firstn (k - 1) (rnd_items dyn') /\
    firstn k (nd_users dyn) = firstn k (nd_users dyn') /\ firstn k (nd_items dyn) = firstn k (nd_items dyn').
  Proof.
    intros HM O1 O2 LC HD E1 E2 k. unfold full_dynamical_experiment in E1, E2.
    rewrite (prepared_none sort_days _ cut O1) in E1. rewrite (prepared_none sort_days _ cut O2) in E2. cbn [bind] in E1, E2.
    assert (FI : forall l, firstn (Z.to_nat cut) (shared ++ l) = firstn (Z.to_nat cut) shared).
    { intro l. rewrite firstn_app. replace (Z.to_nat cut - length shared)%nat with 0%nat by lia. cbn [firstn]. now rewrite app_nil_r. }
    assert (SK : forall l, skipn (Z.to_nat cut) (shared ++ l) = skipn (Z.to_nat cut) shared ++ l).
    { intro l. rewrite skipn_app. replace (Z.to_nat cut - length shared)%nat with 0%nat by lia. reflexivity. }
    assert (GB : forall l, incl l (later ++ later') ->
      groupby tb_day (skipn (Z.to_nat cut) (shared ++ l)) = groupby tb_day (skipn (Z.to_nat cut) shared) ++ groupby tb_day l).
    { intros l I. rewrite SK. apply groupby_app. intros x y I1 I2. apply HD; [|auto].
      rewrite <- (firstn_skipn (Z.to_nat cut) shared). apply in_or_app. now right. }
    rewrite !FI in *. rewrite (GB later) in E1 by (intros ? ?; apply in_or_app; auto).
    rewrite (GB later') in E2 by (intros ? ?; apply in_or_app; auto).
    destruct (entry (map content (firstn (Z.to_nat cut) shared))) as [d|]; cbn [bind] in E1, E2; [|discriminate].
    rewrite map_app in E1, E2.
    eapply experiments_agree; [exact E1|exact E2| | |];
      try (rewrite n_steps_pos by auto; rewrite app_length, !map_length, groupby_days; unfold k; lia).
    unfold k. rewrite !firstn_app, !map_length, groupby_days.
    replace (Nat.min (Z.to_nat how_many) (length (nodup Z.eq_dec (map tb_day (skipn (Z.to_nat cut) shared))))
             - length (nodup Z.eq_dec (map tb_day (skipn (Z.to_nat cut) shared))))%nat with 0%nat by lia.
    reflexivity.
  Qed.
End Later.

Lemma keeps_2d rows d : entry_2d rows = Ok d -> forall u, In u (users_2d d) <-> In u (map r_user rows).
Proof. unfold entry_2d. intro E. injection E as <-. unfold users_2d. tauto. Qed.
Lemma keeps_3d L rows d : entry_3d L rows = Ok d -> forall u, In u (users_3d d) <-> In u (map r_user rows).
Proof. intros E u. unfold users_3d. eapply Retrain_main.crop_users. exact E. Qed.

(** ** The stability test is not empty *)
Lemma past_0 keep initial stream : past keep initial stream 0 = initial.
Proof. unfold past. cbn. apply app_nil_r. Qed.
Lemma feasible_served k fits keep initial groups test rows n : selected n initial groups test ->
  (forall u, In u (map r_user rows) -> In u (map tb_user initial)) -> (n <= length groups)%nat ->
  (feasible k fits keep test rows (map (map content) groups) n <-> served k fits keep test rows (map (map content) groups) n).
Proof.
  intros SE U Ln. unfold feasible, served. split; [tauto|]. intro H. split; [exact H|]. intro L2.
  destruct (nth_error groups 0) as [g|] eqn:Eg; [|apply nth_error_None in Eg; lia].
  assert (Ec : nth_error (map (map content) groups) 0 = Some (map content g)) by (rewrite nth_error_map, Eg; auto).
  destruct (H 0%nat (map content g) ltac:(lia) Ec) as ((F & _) & _). rewrite past_0 in F.
  apply (selected_nonempty n initial groups test rows g); auto. lia.
Qed.

Lemma retrainable_served r0 r1 r2 L k keep initial groups test rows n : selected n initial groups test ->
  (forall u, In u (map r_user (keep rows)) -> In u (map tb_user initial)) -> (n <= length groups)%nat ->
  (retrainable r0 r1 r2 L k keep test rows (map (map content) groups) n <-> retrain_served r0 r1 r2 L k keep test rows (map (map content) groups) n).
Proof.
  intros SE U Ln. unfold retrainable, retrain_served. split; [tauto|]. intros (H1 & H). split; [exact H1|]. split; [exact H|]. intro L2.
  destruct (nth_error groups 0) as [g|] eqn:Eg; [|apply nth_error_None in Eg; lia].
  assert (Ec : nth_error (map (map content) groups) 0 = Some (map content g)) by (rewrite nth_error_map, Eg; auto).
  destruct (H 0%nat (map content g) ltac:(lia) Ec) as (F & _). unfold recropped in F. cbn [firstn fold_left] in F.
  apply (selected_nonempty n initial groups test (keep rows) g); auto. lia.
Qed.
