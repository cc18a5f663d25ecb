(** Proofs about the surrounding scripts. *)
From Coq Require Import ZArith List Bool Lia Sorting.Sorted Sorting.Permutation.
From Verif Require Import Prelude Prelude_proofs DataPrep_model DataPrep_spec DataPrep_proofs
  Pcore_model Pcore_spec Pcore_main Stream_model Stream_spec Stream_group Stream_main
  Psi_model Psi_spec Psi_proofs Psi_main Tables_model Tables_spec.
Import ListNotations.
Open Scope Z_scope.

(** * Days *)
Lemma round_day_nearest t d : round_day t = d <-> nearest_midnight t d.
Proof.
  unfold round_day, nearest_midnight, DAY. change (86400 / 2) with 43200.
  pose proof (Z.div_mod t 86400 ltac:(lia)) as E. pose proof (Z.mod_pos_bound t 86400 ltac:(lia)) as B.
  set (q := t / 86400) in *. set (r := t mod 86400) in *. clearbody q r.
  assert (P : forall k, Z.Even k -> Z.Odd k -> False).
  { intros k [a Ha] [b Hb]. lia. }
  split.
  - intros <-. destruct (43200 <? r) eqn:E1; cbn [orb].
    + apply Z.ltb_lt in E1. exists (q + 1). split; [lia|]. split; [lia|]. lia.
    + apply Z.ltb_ge in E1. destruct (r =? 43200) eqn:E2; cbn [andb].
      * apply Z.eqb_eq in E2. destruct (Z.odd q) eqn:E3.
        -- exists (q + 1). split; [lia|]. split; [lia|]. intros _.
           apply Z.odd_spec in E3 as [k Hk]. exists (k + 1). lia.
        -- exists q. split; [lia|]. split; [lia|]. intros _. apply Z.even_spec.
           rewrite <- Z.negb_odd, E3. reflexivity.
      * apply Z.eqb_neq in E2. exists q. split; [lia|]. split; [lia|]. lia.
  - intros [k [-> [H1 H2]]]. destruct (43200 <? r) eqn:E1; cbn [orb].
    + apply Z.ltb_lt in E1. assert (k = q + 1) by lia. subst k. lia.
    + apply Z.ltb_ge in E1. destruct (r =? 43200) eqn:E2; cbn [andb].
      * apply Z.eqb_eq in E2. assert (K : k = q \/ k = q + 1) by lia.
        specialize (H2 ltac:(lia)). destruct (Z.odd q) eqn:E3.
        -- apply Z.odd_spec in E3. destruct K; subst k; [exfalso; eapply P; eauto|lia].
        -- destruct K as [->| ->]; [lia|]. exfalso.
           assert (Z.Even q) by (apply Z.even_spec; rewrite <- Z.negb_odd, E3; reflexivity).
           destruct H as [a Ha], H2 as [b Hb]. lia.
      * apply Z.eqb_neq in E2. assert (k = q) by lia. subst k. lia.
Qed.

Lemma round_day_mono t t' : t <= t' -> round_day t <= round_day t'.
Proof.
  intros H. pose proof (proj1 (round_day_nearest t _) eq_refl) as [k [E [A B]]].
  pose proof (proj1 (round_day_nearest t' _) eq_refl) as [k' [E' [A' B']]].
  rewrite E, E' in *. destruct (Z_le_gt_dec k k') as [|G]; [lia|exfalso].
  assert (k = k' + 1) by lia. subst k. specialize (B ltac:(lia)). specialize (B' ltac:(lia)).
  destruct B as [a Ha], B' as [b Hb]. lia.
Qed.

Lemma round_day_calendar t :
  (round_day t = t / 86400 * 86400 /\ (t mod 86400 < 43200 \/ (t mod 86400 = 43200 /\ Z.Even (t / 86400))))
  \/ (round_day t = (t / 86400 + 1) * 86400 /\ (43200 < t mod 86400 \/ (t mod 86400 = 43200 /\ Z.Odd (t / 86400)))).
Proof.
  unfold round_day, DAY. change (86400 / 2) with 43200.
  destruct (43200 <? t mod 86400) eqn:E1; cbn [orb].
  - apply Z.ltb_lt in E1. right. auto.
  - apply Z.ltb_ge in E1. destruct (t mod 86400 =? 43200) eqn:E2; cbn [andb].
    + apply Z.eqb_eq in E2. destruct (Z.odd (t / 86400)) eqn:E3.
      * right. split; auto. right. split; auto. now apply Z.odd_spec.
      * left. split; auto. right. split; auto. apply Z.even_spec. rewrite <- Z.negb_odd, E3. reflexivity.
    + apply Z.eqb_neq in E2. left. split; auto. left. lia.
Qed.

Lemma round_day_main t :
  nearest_midnight t (round_day t) /\ (forall d, nearest_midnight t d -> d = round_day t)
  /\ (forall t', t <= t' -> round_day t <= round_day t')
  /\ (round_day t = t / 86400 * 86400 <->
      t mod 86400 < 43200 \/ (t mod 86400 = 43200 /\ Z.Even (t / 86400))).
Proof.
  split; [apply round_day_nearest; reflexivity|]. split; [|split].
  - intros d H. symmetry. apply round_day_nearest; auto.
  - intros t'. apply round_day_mono.
  - destruct (round_day_calendar t) as [[E H]|[E H]]; rewrite E.
    + split; auto.
    + split; [lia|]. intros G. exfalso. destruct H as [H|[H [a Ha]]], G as [G|[G [b Hb]]]; lia.
Qed.

(** * Prepared tables *)
Lemma table_length users items data :
  length users = length data -> length items = length data -> length (table_of users items data) = length data.
Proof.
  intros A B. unfold table_of. rewrite map_length, enumerate_length, !combine_length. lia.
Qed.

Lemma table_cols users items data :
  length users = length data -> length items = length data ->
  let t := table_of users items data in
  map tb_index t = zrange (length t) /\ map tb_user t = users /\ map tb_item t = items
  /\ map tb_time t = map raw_time data /\ (forall r, In r t -> tb_day r = round_day (tb_time r) /\ tb_rel r = 1).
Proof.
  intros A B t. assert (L := table_length users items data A B). fold t in L. subst t.
  unfold table_of. 
  assert (E1 : forall s, map tb_index (map (fun x => let '(i, (u, j, r)) := x in
     mkT i u j (raw_time r) (round_day (raw_time r)) 1) (enumerate s (combine (combine users items) data)))
     = map fst (enumerate s (combine (combine users items) data))).
  { intros s. rewrite map_map. apply map_ext. intros [i [[u j] r]]. reflexivity. }
  split.
  { rewrite E1, enumerate_fst. unfold zrange. rewrite map_length, enumerate_length.
    apply map_ext. intros x. lia. }
  clear E1 L. generalize 0 at 1 2 3 4. revert items data A B.
  induction users as [|u users IH]; intros items data A B s.
  - destruct data; [|discriminate]. destruct items; [|discriminate]. cbn. intuition.
  - destruct data as [|r data]; [discriminate|]. destruct items as [|i items]; [discriminate|].
    cbn [length] in A, B. destruct (IH items data ltac:(lia) ltac:(lia) (s + 1)) as [H1 [H2 [H3 H4]]].
    cbn [combine enumerate map tb_user tb_item tb_time]. rewrite H1, H2, H3.
    split; auto. split; auto. split; auto. intros x [<-|H]; [cbn; auto|]. apply H4; auto.
Qed.

Lemma sorted_map_inv {X} (f : X -> Z) l :
  StronglySorted Z.le (map f l) -> StronglySorted (fun x y => f x <= f y) l.
Proof.
  induction l as [|x l IH]; intros H; [constructor|]. inversion H; subst. constructor; auto.
  rewrite Forall_forall in *. intros y Hy. apply H3. apply in_map; auto.
Qed.
Lemma sorted_map {X} (f : X -> Z) l :
  StronglySorted (fun x y => f x <= f y) l -> StronglySorted Z.le (map f l).
Proof.
  induction 1 as [|x l H IH F]; cbn; constructor; auto.
  rewrite Forall_forall in *. intros y Hy. apply in_map_iff in Hy as [z [<- Hz]]. auto.
Qed.

Lemma sorted_impl_in {X} (R Q : X -> X -> Prop) l :
  (forall x y, In x l -> In y l -> R x y -> Q x y) -> StronglySorted R l -> StronglySorted Q l.
Proof.
  intros H S. induction S as [|x l S IH F]; constructor.
  - apply IH. intros; apply H; auto; right; auto.
  - rewrite Forall_forall in *. intros y Hy. apply H; [left; auto|right; auto|auto].
Qed.

Lemma table_chronological users items data :
  length users = length data -> length items = length data ->
  StronglySorted (fun x y => raw_time x <= raw_time y) data ->
  chronological (table_of users items data).
Proof.
  intros A B S. destruct (table_cols users items data A B) as [H1 [H2 [H3 [H4 H5]]]].
  assert (T : StronglySorted (fun x y => tb_time x <= tb_time y) (table_of users items data)).
  { apply sorted_map_inv. rewrite H4. apply sorted_map. exact S. }
  split; [exact H1|]. split; [exact T|]. split.
  - eapply sorted_impl_in; [|exact T]. intros x y Hx Hy Hle. cbn.
    rewrite (proj1 (H5 x Hx)), (proj1 (H5 y Hy)). apply round_day_mono; auto.
  - intros r Hr. destruct (H5 r Hr) as [E1 E2]. split; auto. rewrite E1. apply round_day_nearest. reflexivity.
Qed.

Lemma sorted_skipn {X} (R : X -> X -> Prop) n l : StronglySorted R l -> StronglySorted R (skipn n l).
Proof.
  revert l. induction n as [|n IH]; intros l H; [exact H|]. destruct l; [exact H|]. inversion H; subst. cbn. auto.
Qed.

Lemma prepared_main sort_time data :
  sorts_by raw_time sort_time ->
  (let t := prepare_encoded sort_time data in
   chronological t
   /\ exists sorted, Permutation data sorted /\ map tb_time t = map raw_time sorted
      /\ renumbers (map raw_user sorted) (map tb_user t) /\ renumbers (map raw_item sorted) (map tb_item t))
  /\ (forall keep, let t := prepare_ml20m sort_time keep data in
   chronological t
   /\ exists dropped kept, Permutation data (dropped ++ kept) /\ length kept = Nat.min keep (length data)
      /\ (forall x y, In x dropped -> In y kept -> raw_time x <= raw_time y)
      /\ map tb_time t = map raw_time kept /\ map tb_user t = map raw_user kept
      /\ map tb_item t = map raw_item kept).
Proof.
  intros H. destruct (H data) as [P S]. split.
  - intros t. subst t. unfold prepare_encoded.
    assert (L : forall v, length (encode_column v) = length v) by (intros; apply map_length).
    split.
    + apply table_chronological; auto; rewrite L, map_length; reflexivity.
    + destruct (table_cols (encode_column (map raw_user (sort_time data))) (encode_column (map raw_item (sort_time data)))
                  (sort_time data)) as [H1 [H2 [H3 [H4 _]]]]; try (rewrite L, map_length; reflexivity).
      exists (sort_time data). split; [exact P|]. split; [exact H4|]. rewrite H2, H3.
      split; apply encode_main.
  - intros keep t. subst t. unfold prepare_ml20m. set (k := lastn keep (sort_time data)).
    assert (S2 : StronglySorted (fun x y => raw_time x <= raw_time y) k) by (apply sorted_skipn; exact S).
    split; [apply table_chronological; auto; rewrite map_length; reflexivity|].
    destruct (table_cols (map raw_user k) (map raw_item k) k) as [H1 [H2 [H3 [H4 _]]]]; try (rewrite map_length; reflexivity).
    exists (firstn (length (sort_time data) - keep) (sort_time data)), k.
    assert (LK : length k = Nat.min keep (length data)).
    { unfold k. rewrite lastn_length, (Permutation_length P). reflexivity. }
    subst k. split; [unfold lastn; rewrite firstn_skipn; exact P|]. split; [exact LK|].
    split; [|auto].
    rewrite <- (firstn_skipn (length (sort_time data) - keep) (sort_time data)) in S.
    apply StronglySorted_app_inv in S as [_ [_ S]]. intros x y Hx Hy. apply S; auto.
Qed.

(** A prepared table read back for an experiment. *)
Lemma day_time_lt t x y : chronological t -> In x t -> In y t -> tb_day x < tb_day y -> tb_time x < tb_time y.
Proof.
  intros [_ [_ [_ H]]] Hx Hy D. destruct (H x Hx) as [Nx _]. destruct (H y Hy) as [Ny _].
  apply round_day_nearest in Nx, Ny. destruct (Z_lt_le_dec (tb_time x) (tb_time y)) as [|G]; auto.
  apply round_day_mono in G. lia.
Qed.

Lemma chronological_prefix t cut x y : chronological t ->
  In x t -> In y t -> tb_index x < cut -> ~ tb_index y < cut -> tb_time x <= tb_time y.
Proof.
  intros [I [S _]] Hx Hy A B.
  apply In_nth_error in Hx as [i Hi]. apply In_nth_error in Hy as [j Hj].
  assert (K : forall i r, nth_error t i = Some r -> tb_index r = Z.of_nat i).
  { intros k r E. apply (map_nth_error tb_index) in E. rewrite I in E. unfold zrange in E.
    assert (k < length t)%nat.
    { assert (nth_error (map Z.of_nat (seq 0 (length t))) k <> None) as N by congruence.
      apply nth_error_Some in N. rewrite map_length, seq_length in N. exact N. }
    rewrite (map_nth_error Z.of_nat k (seq 0 (length t)) (d := k)) in E; [congruence|].
    rewrite (nth_error_nth' _ 0%nat) by (rewrite seq_length; auto). rewrite seq_nth; auto. }
  rewrite (K _ _ Hi) in A. rewrite (K _ _ Hj) in B.
  assert (LT : (i < j)%nat) by lia. clear - S Hi Hj LT. revert i j Hi Hj LT.
  induction S as [|a l S IH F]; intros i j Hi Hj LT; [destruct i; discriminate|].
  destruct j as [|j]; [lia|]. destruct i as [|i].
  - cbn in Hi, Hj. injection Hi as <-. rewrite Forall_forall in F. apply F. eapply nth_error_In; eauto.
  - cbn in Hi, Hj. eapply IH; [exact Hi|exact Hj|lia].
Qed.

Lemma prepared_stream_main t (sort_days : list trow -> list trow) cut hm :
  chronological t -> sorts_by tb_day sort_days ->
  exists initial stream left,
    prepare_data_for_experiment tb_index tb_day sort_days t cut hm = Ok (initial, stream, left)
    /\ Permutation (initial ++ concat (map snd stream)) t
    /\ (forall x k g y, In x initial -> In (k, g) stream -> In y g -> tb_time x <= tb_time y)
    /\ (forall k g k' g' x y, In (k, g) stream -> In (k', g') stream -> In x g -> In y g' -> k < k' ->
          tb_time x < tb_time y).
Proof.
  intros C SD. destruct (prepare_main tb_index tb_day sort_days t cut hm SD)
    as [initial [stream [left [E [EI [[P [_ [_ [O _]]]] _]]]]]].
  exists initial, stream, left. split; [exact E|].
  assert (M : forall k g y, In (k, g) stream -> In y g -> In y t /\ ~ tb_index y < cut).
  { intros k g y H1 H2. assert (In y (concat (map snd stream))) as H3.
    { apply in_concat. exists g. split; auto. apply in_map_iff. exists (k, g). auto. }
    apply (Permutation_in _ P) in H3. apply filter_In in H3 as [H3 H4]. split; auto.
    apply negb_true_iff, Z.ltb_ge in H4. lia. }
  split; [|split].
  - rewrite P, EI. apply filter_neg_perm.
  - intros x k g y Hx Hg Hy. rewrite EI in Hx. apply filter_In in Hx as [Hx Hc]. apply Z.ltb_lt in Hc.
    destruct (M _ _ _ Hg Hy) as [Hy1 Hy2]. eapply chronological_prefix; eauto.
  - intros k g k' g' x y Hg Hg' Hx Hy Hk.
    apply (day_time_lt t); [exact C|apply (M _ _ _ Hg Hx)|apply (M _ _ _ Hg' Hy)|exact (O _ _ _ _ _ _ Hg Hg' Hx Hy Hk)].
Qed.

(** * Data dynamics *)
Lemma prepare_groups {A} (index day : A -> Z) (sort_days : list A -> list A) data cut hm initial stream left :
  prepare_data_for_experiment index day sort_days data cut hm = Ok (initial, stream, left) ->
  stream = map (fun g => (fst g, map fst (snd g))) (groupby snd left).
Proof.
  unfold prepare_data_for_experiment. destruct hm as [hm|].
  - destruct (mapM _ _) as [l|] eqn:E; cbn [bind]; [|discriminate]. intros H. injection H as _ <- <-. reflexivity.
  - intros H. injection H as _ <- <-.
    set (l := filter _ data). unfold groupby. rewrite !map_map. cbn [snd fst].
    apply map_ext. intros k. cbn. f_equal. induction l as [|x l IH]; auto. cbn.
    destruct (day x =? k); cbn; rewrite IH; reflexivity.
Qed.

Lemma filter_lt_firstn l n d : increasing l -> nth_error l n = Some d ->
  filter (fun k => k <? d) l = firstn n l.
Proof.
  intros S. revert n. induction S as [|a l S IH F]; intros n H; [destruct n; discriminate|].
  destruct n as [|n]; cbn in *.
  - injection H as <-. rewrite Z.ltb_irrefl. rewrite Forall_forall in F. clear IH S.
    induction l as [|b l IHl]; auto. cbn. pose proof (F b (or_introl eq_refl)).
    destruct (b <? a) eqn:E; [apply Z.ltb_lt in E; lia|]. apply IHl. intros; apply F; right; auto.
  - rewrite Forall_forall in F. pose proof (F d (nth_error_In _ _ H)).
    destruct (a <? d) eqn:E; [|apply Z.ltb_ge in E; lia]. f_equal. apply IH; auto.
Qed.

Lemma np_unique_filter (f : Z -> bool) l : np_unique (filter f l) = filter f (np_unique l).
Proof.
  assert (I1 := np_unique_increasing (filter f l)).
  assert (I2 : increasing (filter f (np_unique l))).
  { assert (I := np_unique_increasing l). unfold increasing in *. revert I. generalize (np_unique l).
    intros m I. induction I as [|x m I IH F]; cbn; [constructor|]. destruct (f x); auto. constructor; auto.
    rewrite Forall_forall in *. intros y Hy. apply filter_In in Hy as [Hy _]. auto. }
  assert (M : forall x, In x (np_unique (filter f l)) <-> In x (filter f (np_unique l))).
  { intros x. rewrite np_unique_In, !filter_In, np_unique_In. tauto. }
  revert I1 I2 M. generalize (np_unique (filter f l)) (filter f (np_unique l)). clear.
  intros a. induction a as [|x a IH]; intros b I1 I2 M.
  - destruct b as [|y b]; auto. exfalso. apply (proj2 (M y)). left; auto.
  - destruct b as [|y b]; [exfalso; apply (proj1 (M x)); left; auto|].
    inversion I1 as [|? ? S1 F1]; subst. inversion I2 as [|? ? S2 F2]; subst. rewrite Forall_forall in F1, F2.
    assert (x = y).
    { destruct (proj1 (M x) (or_introl eq_refl)) as [|Hx]; auto.
      destruct (proj2 (M y) (or_introl eq_refl)) as [|Hy]; auto. apply F2 in Hx. apply F1 in Hy. lia. }
    subst y. f_equal. apply IH; auto. intros z. split; intros Hz.
    + destruct (proj1 (M z) (or_intror Hz)) as [<-|]; auto. apply F1 in Hz. lia.
    + destruct (proj2 (M z) (or_intror Hz)) as [<-|]; auto. apply F2 in Hz. lia.
Qed.

Lemma groupby_filter_key {A} (key : A -> Z) (f : Z -> bool) l :
  groupby key (filter (fun r => f (key r)) l) = filter (fun g => f (fst g)) (groupby key l).
Proof.
  unfold groupby.
  assert (E : map key (filter (fun r => f (key r)) l) = filter f (map key l)).
  { induction l as [|x l IH]; auto. cbn. destruct (f (key x)); cbn; rewrite IH; reflexivity. }
  rewrite E, np_unique_filter. generalize (np_unique (map key l)). intros ks.
  induction ks as [|k ks IH]; auto. cbn. destruct (f k) eqn:Fk; cbn; rewrite IH; auto. f_equal. f_equal.
  rewrite filter_filter. apply filter_ext. intros r. destruct (key r =? k) eqn:K; [|apply andb_false_r].
  apply Z.eqb_eq in K. rewrite K, Fk. reflexivity.
Qed.

Lemma groupby_keys {A} (key : A -> Z) l : map fst (groupby key l) = np_unique (map key l).
Proof. unfold groupby. rewrite map_map. apply map_id. Qed.

Lemma filter_map_fst {A} (f : Z -> bool) (l : list (Z * A)) n :
  filter f (map fst l) = firstn n (map fst l) -> NoDup (map fst l) ->
  filter (fun g => f (fst g)) l = firstn n l.
Proof.
  revert n. induction l as [|[k g] l IH]; intros n H N; [destruct n; reflexivity|]. cbn in *.
  inversion N; subst. destruct n as [|n]; cbn in H.
  - destruct (f k); [discriminate|]. cbn. exact (IH 0%nat H H3).
  - destruct (f k) eqn:E; [|].
    + injection H as H. cbn. f_equal. apply IH; auto.
    + exfalso. apply H2. assert (I : In k (filter f (map fst l))) by (rewrite H; left; auto).
      apply filter_In in I as [I _]. exact I.
Qed.

Lemma firstn_snoc {X} (l : list X) m d : nth_error l m = Some d -> firstn (m + 1) l = firstn m l ++ [d].
Proof.
  revert m. induction l as [|x l IH]; intros [|m] H; cbn in *; try discriminate.
  - injection H as ->. reflexivity.
  - f_equal. apply IH; auto.
Qed.

Lemma data_dynamics_main {A} (index day user : A -> Z) (sort_days : list A -> list A) data cut hm initial stream left n :
  prepare_data_for_experiment index day sort_days data cut hm = Ok (initial, stream, left) ->
  let saved := data_dynamics (map (fun x => (user (fst x), snd x)) left) n in
  (n = 0%nat \/ stream = [] -> saved = Err IndexError)
  /\ (n <> 0%nat -> stream <> [] ->
      let described := firstn (Nat.min n (length stream) - 1) stream in
      saved = Ok (map (fun g => ndistinct (map user (snd g))) described,
                  map (fun g => length (snd g)) described)).
Proof.
  intros H saved. apply prepare_groups in H. subst saved. unfold data_dynamics.
  set (left' := map (fun x => (user (fst x), snd x)) left).
  assert (EK : map snd left' = map snd left) by (unfold left'; rewrite map_map; reflexivity).
  rewrite EK. fold (np_unique (map snd left)).
  assert (LS : length stream = length (np_unique (map snd left))).
  { rewrite H, map_length. rewrite <- (map_length fst), groupby_keys. reflexivity. }
  split.
  - intros [->|E]; [reflexivity|]. rewrite E in LS. destruct (np_unique (map snd left)); [|discriminate].
    destruct n; reflexivity.
  - intros N S. cbv zeta. set (ks := np_unique (map snd left)) in *.
    assert (Lk : length ks <> 0%nat) by (destruct stream; [congruence|cbn in LS; lia]).
    set (m := (Nat.min n (length stream) - 1)%nat) in *.
    assert (M : exists d, nth_error ks m = Some d).
    { destruct (nth_error ks m) eqn:E; [eauto|]. apply nth_error_None in E. lia. }
    destruct M as [d Hd].
    assert (R : exists r, rev (firstn n ks) = d :: r).
    { assert (firstn n ks = firstn m ks ++ [d]) as ->.
      { assert (FM : firstn n ks = firstn (m + 1) ks).
        { destruct (Nat.le_gt_cases n (length ks)).
          - f_equal. lia.
          - rewrite !firstn_all2 by lia. reflexivity. }
        rewrite FM. apply firstn_snoc; exact Hd. }
      rewrite rev_app_distr. cbn. eauto. }
    destruct R as [r ->].
    assert (G : groupby snd (filter (fun x => snd x <? d) left') = firstn m (groupby snd left')).
    { rewrite (groupby_filter_key snd (fun k => k <? d)). apply (filter_map_fst (fun k => k <? d)).
      - rewrite groupby_keys, EK. apply filter_lt_firstn; auto. apply np_unique_increasing.
      - rewrite groupby_keys. apply np_unique_NoDup. }
    rewrite G. clearbody m. rewrite H.
    assert (GL : groupby snd left' = map (fun g => (fst g, map (fun x => (user (fst x), snd x)) (snd g))) (groupby snd left)).
    { unfold groupby. rewrite EK, !map_map. apply map_ext. intros k. cbn. f_equal. unfold left'. clear.
      induction left as [|x l IH]; auto. cbn. destruct (snd x =? k); cbn; rewrite IH; reflexivity. }
    rewrite GL, !firstn_map, !map_map. f_equal. f_equal.
    + apply map_ext. intros [k g]. cbn. rewrite !map_map. cbn. rewrite unique_length_ndistinct. reflexivity.
    + apply map_ext. intros [k g]. cbn. rewrite !map_length. reflexivity.
Qed.
