(** Proofs about the length of the lists. *)
From Coq Require Import ZArith QArith List Bool Lia Permutation.
From Verif Require Import Prelude Prelude_proofs DataPrep_model DataPrep_spec Recommend_model Recommend_spec Recommend_proofs Recommend_main
  Eval_model Eval_spec Eval_proofs Tensor_model Matrix_model LinAlg_model Dynamic_model Dynamic_spec Dynamic_main Topk_spec.
Import ListNotations.
Open Scope Z_scope.

Lemma top_k_nested {A} (leb : A -> A -> bool) (st : rec_state A) fv u scores k k' r1 r2 :
  (forall x y, leb x y = true -> leb y x = true -> x = y) ->
  NoDup scores -> length scores = rs_n_items st -> (k <= k')%nat ->
  is_top_k leb st fv u scores k r1 -> is_top_k leb st fv u scores k' r2 -> incl r1 r2.
Proof.
  intros anti ND HL LK [L1 [N1 [C1 T1]]] [L2 [N2 [C2 T2]]].
  assert (G : forall j, candidate st fv u j -> exists x, nth_error scores (Z.to_nat j) = Some x).
  { intros j [Hj _]. destruct (nth_error scores (Z.to_nat j)) eqn:E; [eauto|].
    apply nth_error_None in E. lia. }
  intros j Hj. destruct (in_dec Z.eq_dec j r2) as [|Nj]; auto. exfalso.
  destruct (Forall_Exists_dec (fun x => In x r1) (fun x => in_dec Z.eq_dec x r1) r2) as [F|E].
  - assert (incl r2 r1) by (intros x; apply (proj1 (Forall_forall _ _) F)).
    apply Nj. refine (NoDup_length_incl N2 _ H j Hj). lia.
  - apply Exists_exists in E as [j' [Hj' Nj']].
    destruct (G j (C1 j Hj)) as [x Hx]. destruct (G j' (C2 j' Hj')) as [y Hy].
    pose proof (T1 j j' x y Hj (C2 j' Hj') Nj' Hx Hy) as L.
    pose proof (T2 j' j y x Hj' (C1 j Hj) Nj Hy Hx) as L'.
    assert (x = y) by auto. subst y.
    assert (Z.to_nat j = Z.to_nat j').
    { apply (proj1 (NoDup_nth_error scores) ND); [apply nth_error_Some; congruence|congruence]. }
    destruct (C1 j Hj) as [B1 _]. destruct (C2 j' Hj') as [B2 _].
    assert (j = j') by lia. subst; contradiction.
Qed.

Lemma translated_incl {A} (st : rec_state A) r1 r2 o1 o2 :
  incl r1 r2 -> translated st r1 o1 -> translated st r2 o2 -> incl o1 o2.
Proof.
  unfold translated.
  assert (M : forall r o, Forall2 (fun j x => g_of (m_items (rs_mappings st)) j = Some x) r o ->
            o = map (fun j => match g_of (m_items (rs_mappings st)) j with Some x => x | None => 0 end) r).
  { induction 1 as [|j x r o H F IH]; simpl; auto. rewrite H. f_equal; auto. }
  intros P T1 T2. apply M in T1, T2. subst. intros x H. apply in_map_iff in H as (y & E & H). apply in_map_iff. exists y. auto.
Qed.

Lemma nested_main :
  forall {A} (leb : A -> A -> bool),
    (forall x y z, leb x y = true -> leb y z = true -> leb x z = true) ->
    (forall x y, leb x y = true -> leb y x = true -> x = y) ->
  forall ap1 ap2, argpartition_contract leb ap1 -> argpartition_contract leb ap2 ->
  forall st users k k' fv internal rows1 rows2,
    wf_state st -> (1 <= k <= k')%nat -> (1 <= rs_n_items st)%nat ->
    (fv = true -> internal = false -> (2 <= rs_n_items st)%nat) ->
    no_ties st ->
    Recommend_model.recommend ap1 st users k fv internal = Ok rows1 ->
    Recommend_model.recommend ap2 st users k' fv internal = Ok rows2 ->
    Forall2 (fun r r' => incl r r') rows1 rows2 /\
    (forall test h h', length test = length users -> hr rows1 test = Ok h -> hr rows2 test = Ok h' -> (h <= h')%Q).
Proof.
  intros A leb trans anti ap1 ap2 H1 H2 st users k k' fv internal rows1 rows2 W (Hk & Hkk) Hn Hi HN R1 R2.
  destruct (recommend_cases leb trans ap1 H1 st users k fv internal W Hn Hi Hk)
    as [[? [_ [_ E]]]|[[_ [_ E]]|[_ [rows1' [E1 F1]]]]]; try congruence.
  destruct (recommend_cases leb trans ap2 H2 st users k' fv internal W Hn Hi ltac:(lia))
    as [[? [_ [_ E]]]|[[_ [_ E]]|[_ [rows2' [E2 F2]]]]]; try congruence.
  assert (rows1' = rows1) by congruence. assert (rows2' = rows2) by congruence. subst.
  assert (F : Forall2 (fun r r' => incl r r') rows1 rows2).
  { clear R1 R2 E1 E2.
    revert rows2 F2. induction F1 as [|uid r1 users rows1 [u1 [Hu1 P1]] F1 IH]; intros rows2 F2;
      inversion F2 as [|? r2 ? rows2' [u2 [Hu2 P2]] F2']; subst; constructor; auto.
    assert (u2 = u1) by congruence. subst u2. clear F1 IH F2 F2'.
    destruct P1 as [s1 [i1 [ES1 [T1 [_ X1]]]]]. destruct P2 as [s2 [i2 [ES2 [T2 [_ X2]]]]].
    assert (s2 = s1) by congruence. subst s2.
    assert (HL : length s1 = rs_n_items st).
    { destruct W as [_ [WS [WU _]]]. destruct (WS u1 (WU _ _ Hu1)) as [s [E L]]. congruence. }
    assert (P : incl i1 i2).
    { eapply (top_k_nested leb st fv u1 s1 _ _ i1 i2 anti (HN _ _ ES1) HL); [|exact T1|exact T2]. lia. }
    destruct internal; [subst; auto|]. eapply translated_incl; eauto. }
  split; [exact F|]. intros test h h' LT E E'. eapply (hr_grow_main rows1 rows2 test); eauto.
  apply Forall2_len in F1. lia.
Qed.

Lemma possible_main :
  forall {A} (leb : A -> A -> bool),
    (forall x y z, leb x y = true -> leb y z = true -> leb x z = true) ->
  forall argpart, argpartition_contract leb argpart ->
  forall st users k k' fv internal rows,
    wf_state st -> (1 <= k <= k')%nat -> (2 <= rs_n_items st)%nat ->
    Recommend_model.recommend argpart st users k' fv internal = Ok rows -> exists rows0, Recommend_model.recommend argpart st users k fv internal = Ok rows0.
Proof.
  intros A leb tr ap C st users k k' fv internal rows W (L1 & L2) N R.
  destruct (recommend_outcome_main leb tr ap C st users k fv internal W L1 N) as (O1 & _).
  destruct (recommend_outcome_main leb tr ap C st users k' fv internal W ltac:(lia) N) as (O2 & _).
  apply O1. intros uid I. destruct (proj1 O2 (ex_intro _ _ R) uid I) as (u & Hu & B). exists u. split; auto.
  intro Hf. specialize (B Hf). lia.
Qed.

(** ** A full sort *)
Lemma rev_lastn_firstn {X} n (l : list X) : rev (lastn n l) = firstn n (rev l).
Proof. unfold lastn. rewrite firstn_rev. reflexivity. Qed.

Lemma mapM_firstn {X Y} (f : X -> res Y) n l ys : mapM f l = Ok ys -> mapM f (firstn n l) = Ok (firstn n ys).
Proof.
  intro H. apply mapM_Ok_iff in H. apply mapM_Ok_iff. revert n. induction H as [|x y l ys H F IH]; intros [|n]; cbn; constructor; auto.
Qed.

Section Sort.
  Context {A : Type} (ap : nat -> list A -> nat -> list nat).
  Hypothesis SAME : same_for_all_k ap.

  Lemma top_firstn i a k k' idx : (k <= k')%nat -> top_positions ap i a k' = Ok idx -> top_positions ap i a k = Ok (firstn k idx).
  Proof.
    unfold top_positions. intros L H. destruct (Nat.ltb_spec (length a) k'); [discriminate|]. injection H as <-.
    destruct (Nat.ltb_spec (length a) k); [lia|]. f_equal. rewrite (SAME i a (length a - k)%nat (length a - k')%nat), !rev_lastn_firstn, firstn_firstn.
    f_equal. lia.
  Qed.

  Lemma user_firstn st fv internal k k' i u row : (k <= k')%nat -> recommend_user ap st fv internal k' i u = Ok row ->
    recommend_user ap st fv internal k i u = Ok (firstn k row).
  Proof.
    intros L H. unfold recommend_user in *. destruct (rs_scores st u) as [sc|e]; cbn [bind] in *; [|discriminate].
    assert (X : forall c c' : res (list Z), (forall x, c' = Ok x -> c = Ok (firstn k x)) ->
      (do cand <- c'; if internal then Ok cand else mapM (fun j => getitem (new2old (m_items (rs_mappings st))) j) cand) = Ok row ->
      (do cand <- c; if internal then Ok cand else mapM (fun j => getitem (new2old (m_items (rs_mappings st))) j) cand) = Ok (firstn k row)).
    { intros c [x|e] E H0; cbn [bind] in H0; [|discriminate]. rewrite (E x eq_refl). cbn [bind].
      destruct internal; [congruence|now apply mapM_firstn]. }
    revert H. apply X. clear X. intros x H. destruct fv.
    - destruct ((0 <=? u) && (u <? Z.of_nat (rs_n_users st))); [|discriminate]. cbv zeta in *.
      destruct (top_positions ap i (select (map negb (viewed_mask (rs_history st) (rs_n_items st) u)) sc) k') as [idx|e] eqn:E; cbn [bind] in H; [|discriminate].
      rewrite (top_firstn _ _ _ _ _ L E). cbn [bind].
      destruct (take_all (select (map negb (viewed_mask (rs_history st) (rs_n_items st) u)) (zrange (rs_n_items st))) idx) as [c|e] eqn:Et; cbn [bind] in H; [|discriminate].
      unfold take_all in *. rewrite (mapM_firstn _ k _ _ Et). cbn [bind].
      destruct ((rs_n_items st =? 1)%nat && negb internal); [discriminate|]. congruence.
    - destruct (top_positions ap i sc k') as [idx|e] eqn:E; cbn [bind] in H; [|discriminate].
      rewrite (top_firstn _ _ _ _ _ L E). cbn [bind]. injection H as <-. now rewrite firstn_map.
  Qed.

  Lemma loop_firstn st fv internal k k' us : (k <= k')%nat -> forall i rows, recommend_loop ap st fv internal k' i us = Ok rows ->
    recommend_loop ap st fv internal k i us = Ok (map (firstn k) rows).
  Proof.
    intro L. induction us as [|u us IH]; intros i rows H; cbn [recommend_loop] in *; [injection H as <-; reflexivity|].
    destruct (recommend_user ap st fv internal k' i u) as [row|e] eqn:E; cbn [bind] in H; [|discriminate].
    destruct (recommend_loop ap st fv internal k' (Datatypes.S i) us) as [rs|e] eqn:E2; cbn [bind] in H; [|discriminate]. injection H as <-.
    rewrite (user_firstn _ _ _ _ _ _ _ _ L E). cbn [bind]. rewrite (IH _ _ E2). reflexivity.
  Qed.

  Lemma recommend_firstn st users k k' fv internal rows : (k <= k')%nat -> Recommend_model.recommend ap st users k' fv internal = Ok rows ->
    Recommend_model.recommend ap st users k fv internal = Ok (map (firstn (Nat.min k (rs_n_items st))) rows).
  Proof.
    intros L H. unfold Recommend_model.recommend in *. destruct (mapM _ users) as [us|e]; cbn [bind] in *; [|discriminate].
    destruct (fv && negb (history_fits (rs_history st) (rs_n_users st) (rs_n_items st))); [discriminate|].
    eapply loop_firstn; [|exact H]. lia.
  Qed.
End Sort.

Lemma inv_rank_nonneg j : (0 <= inv_rank j)%Q.
Proof. unfold inv_rank, Qle. cbn. lia. Qed.
Lemma rr_nonneg l j x : (0 <= rr_loop j l x)%Q.
Proof. revert j. induction l as [|y l IH]; intro j; cbn [rr_loop]; [apply Qle_refl|]. destruct (y =? x); [apply inv_rank_nonneg|apply IH]. Qed.
Lemma rr_firstn k l : forall j x, (rr_loop j (firstn k l) x <= rr_loop j l x)%Q.
Proof.
  revert k. induction l as [|y l IH]; intros k j x; [rewrite firstn_nil; apply Qle_refl|].
  destruct k as [|k]; [exact (rr_nonneg (y :: l) j x)|].
  cbn [firstn rr_loop]. destruct (y =? x); [apply Qle_refl|apply IH].
Qed.

Lemma mrr_firstn k rows test q q' : mrr (map (firstn k) rows) test = Ok q -> mrr rows test = Ok q' -> (q <= q')%Q.
Proof.
  unfold mrr. rewrite map_length. destruct (length rows <? length test)%nat; [discriminate|].
  destruct test as [|t0 test0] eqn:Et; [discriminate|]. rewrite <- Et. clear Et. unfold div_len.
  destruct (length test) as [|n]; [discriminate|]. intros H1 H2. injection H1 as <-. injection H2 as <-.
  apply Qmult_le_compat_r; [|apply Qinv_le_0_compat; unfold Qle; cbn; lia].
  assert (G : forall a b, (a <= b)%Q ->
    (fold_left (fun t rt => t + rr_loop 0 (fst rt) (snd rt)) (combine (map (firstn k) rows) test) a <=
     fold_left (fun t rt => t + rr_loop 0 (fst rt) (snd rt)) (combine rows test) b)%Q).
  { revert test. induction rows as [|r rows IH]; intros test a b H; [exact H|]. destruct test as [|t test]; [exact H|].
    cbn [map combine fold_left fst snd]. apply IH. apply Qplus_le_compat; auto. apply rr_firstn. }
  apply G, Qle_refl.
Qed.

Lemma sorted_main {A} (ap : nat -> list A -> nat -> list nat) st users k k' fv internal rows : same_for_all_k ap -> (k <= k')%nat ->
  Recommend_model.recommend ap st users k' fv internal = Ok rows ->
  exists rows0, Recommend_model.recommend ap st users k fv internal = Ok rows0 /\ rows0 = map (firstn (Nat.min k (rs_n_items st))) rows /\
    (forall test h h', length test = length rows -> hr rows0 test = Ok h -> hr rows test = Ok h' -> (h <= h')%Q) /\
    (forall test q q', mrr rows0 test = Ok q -> mrr rows test = Ok q' -> (q <= q')%Q).
Proof.
  intros SM L H. eexists. split; [eapply recommend_firstn; eauto|]. split; [reflexivity|]. split.
  - intros test h h' LT. apply hr_grow_main; [now rewrite map_length|].
    clear. induction rows as [|r rows IH]; cbn; constructor; auto. intros x I. rewrite <- (firstn_skipn (Nat.min k (rs_n_items st)) r).
    apply in_or_app. now left.
  - intros test q q'. apply mrr_firstn.
Qed.

(** ** Whole experiments *)
Lemma rows_length {A} (ap : nat -> list A -> nat -> list nat) st users k fv internal rows :
  Recommend_model.recommend ap st users k fv internal = Ok rows -> length rows = length users.
Proof.
  unfold Recommend_model.recommend. destruct (mapM _ users) as [us|e] eqn:E; cbn [bind]; [|discriminate].
  apply mapM_Ok_iff in E. apply Forall2_len in E. rewrite E. destruct (fv && _); [discriminate|].
  generalize 0%nat. revert rows. clear E. induction us as [|u us IH]; intros rows i H; cbn [recommend_loop] in H; [injection H as <-; reflexivity|].
  destruct (recommend_user _ _ _ _ _ _ _) as [r|e]; cbn [bind] in H; [|discriminate].
  destruct (recommend_loop _ _ _ _ _ _ us) as [rs|e] eqn:E; cbn [bind] in H; [|discriminate]. injection H as <-. cbn. f_equal. eauto.
Qed.
Lemma tests_lengths {S D A} (m : api S D A) c s : length (fst (tests m c s)) = length (snd (tests m c s)).
Proof. unfold tests, get_users_to_recommend_test_items. cbn [fst snd]. now rewrite !map_length. Qed.
Section Exp.
  Context {S D A X V T : Type} (zero : A) (sub : A -> A -> A).
  Variables (norm : mat A -> V) (div : V -> V -> V) (minus_one : V) (clock : nat -> T).
  Variables (m m' : api S D A) (grow : D -> list row -> res D) (test_users : list Z) (chunk_mode : bool).
  Variables (view : S -> rec_state X) (ap : nat -> list X -> nat -> list nat) (k k' : nat).
  Hypothesis OLD : only_lists_differ view ap k k' m m'.

  Lemma states_agree st0 initial stream n H H' :
    runs zero sub norm div minus_one m grow test_users chunk_mode st0 initial stream n H ->
    runs zero sub norm div minus_one m' grow test_users chunk_mode st0 initial stream n H' -> (n <= length stream)%nat ->
    forall t, (t <= n)%nat -> st H t = st H' t /\ table H t = table H' t.
  Proof.
    destruct OLD as (Et & Eu & _). intros (T1 & B1 & S1 & _) (T2 & B2 & S2 & _) Ls. induction t as [|t IH]; intro Lt.
    - split; [|congruence]. rewrite Et in T1. congruence.
    - destruct (IH ltac:(lia)) as (I1 & I2). destruct (nth_error stream t) as [c|] eqn:Ec.
      2:{ apply nth_error_None in Ec. lia. }
      destruct (S1 t c ltac:(lia) Ec) as (_ & _ & _ & _ & U1). destruct (S2 t c ltac:(lia) Ec) as (_ & _ & _ & _ & U2).
      unfold updates in U1, U2. rewrite <- I1, <- I2 in U2. destruct chunk_mode; destruct U1 as (X1 & X2), U2 as (Y1 & Y2); rewrite Eu in X2.
      + split; congruence.
      + assert (table H (Datatypes.S t) = table H' (Datatypes.S t)) as Q by congruence. rewrite <- Q in Y2. split; congruence.
  Qed.

  Notation run m := (dynamical_experiment zero sub norm div minus_one clock m grow test_users chunk_mode).

  Lemma experiments_main hm st0 initial stream dyn dyn' :
    run m hm st0 initial stream = Ok dyn -> run m' hm st0 initial stream = Ok dyn' ->
    let n := n_steps hm (length stream) in
    calculation_time dyn = calculation_time dyn' /\ rnd_users dyn = rnd_users dyn' /\ rnd_items dyn = rnd_items dyn' /\
    nd_users dyn = nd_users dyn' /\ nd_items dyn = nd_items dyn' /\
    exists (model : nat -> S) (table : nat -> D), train m st0 initial = Ok (model 0%nat) /\ table 0%nat = initial /\
    forall t c, (t < n)%nat -> nth_error stream t = Some c ->
    updates m grow chunk_mode (model t) (table t) c (model (Datatypes.S t)) (table (Datatypes.S t)) /\ exists rows rows' h h' q q',
      Recommend_model.recommend ap (view (model t)) (fst (tests m c (model t))) k true false = Ok rows /\
      Recommend_model.recommend ap (view (model t)) (fst (tests m c (model t))) k' true false = Ok rows' /\
      hr rows (snd (tests m c (model t))) = Ok h /\ hr rows' (snd (tests m c (model t))) = Ok h' /\
      mrr rows (snd (tests m c (model t))) = Ok q /\ mrr rows' (snd (tests m c (model t))) = Ok q' /\
      nth_error (d_hr dyn) t = Some h /\ nth_error (d_hr dyn') t = Some h' /\ nth_error (d_mrr dyn) t = Some q /\ nth_error (d_mrr dyn') t = Some q'.
  Proof.
    intros E E' n.
    apply (proj1 (experiment_main _ _ _ _ _ _ _ _ _ _ _ _ _ _ _)) in E as (H & R & ->).
    apply (proj1 (experiment_main _ _ _ _ _ _ _ _ _ _ _ _ _ _ _)) in E' as (H' & R' & ->). fold n in R, R' |- *.
    assert (Ln : (n <= length stream)%nat) by (unfold n, n_steps; destruct (0 <? hm); lia).
    assert (AG := states_agree _ _ _ _ _ _ R R' Ln).
    assert (OLD' := OLD). destruct OLD' as (Et & Eu & Em & En & Gu & Gv & Er & Er').
    assert (EM : forall t, (t < n)%nat -> emb_u H t = emb_u H' t /\ emb_v H t = emb_v H' t).
    { intros t Lt. destruct (AG t ltac:(lia)) as (I1 & _). destruct (nth_error stream t) as [c|] eqn:Ec.
      2:{ apply nth_error_None in Ec. lia. }
      destruct R as (_ & _ & S1 & _), R' as (_ & _ & S2 & _).
      destruct (S1 t c ltac:(lia) Ec) as (_ & _ & U1 & V1 & _). destruct (S2 t c ltac:(lia) Ec) as (_ & _ & U2 & V2 & _).
      rewrite <- I1, <- Gu in U2. rewrite <- I1, <- Gv in V2. split; congruence. }
    assert (CH : forall t, (Datatypes.S t < n)%nat -> du H t = du H' t /\ dv H t = dv H' t).
    { intros t Lt. destruct R as (_ & _ & _ & P1), R' as (_ & _ & _ & P2).
      destruct (P1 t ltac:(lia)) as (_ & A1 & A2). destruct (P2 t ltac:(lia)) as (_ & B1 & B2).
      destruct (EM t ltac:(lia)) as (X1 & X2). destruct (EM (Datatypes.S t) ltac:(lia)) as (Y1 & Y2).
      rewrite <- X1, <- Y1 in B1. rewrite <- X2, <- Y2 in B2.
      assert (UC : forall o w x y, user_change zero sub norm div o w x -> user_change zero sub norm div o w y -> x = y).
      { intros o w x y C1 C2. apply change_compute in C1. apply change_compute in C2. congruence. }
      split; [eauto|]. unfold item_change in A2, B2. destruct ((0 <? t)%nat && (mr (emb_v H (Datatypes.S t)) <? mr (emb_v H t))%nat); [congruence|eauto]. }
    unfold reported. cbn [calculation_time d_hr d_mrr rnd_users rnd_items nd_users nd_items].
    split; [reflexivity|]. split; [apply series_ext; intros i Li; apply CH; lia|]. split; [apply series_ext; intros i Li; apply CH; lia|].
    split; [apply series_ext; intros i Li; destruct (EM i ltac:(lia)); congruence|].
    split; [apply series_ext; intros i Li; destruct (EM i ltac:(lia)); congruence|].
    exists (st H), (table H). split; [apply R|]. split; [apply R|]. intros t c Lt Ec. destruct R as (_ & _ & S1 & _), R' as (_ & _ & S2 & _).
    destruct (S1 t c ltac:(lia) Ec) as ((r & A1 & A2 & A3) & _ & _ & _ & UP). split; [exact UP|]. destruct (S2 t c ltac:(lia) Ec) as ((r' & B1 & B2 & B3) & _).
    destruct (AG t ltac:(lia)) as (I1 & _). rewrite <- I1 in B1, B2, B3.
    assert (TT : tests m' c (st H t) = tests m c (st H t)) by (unfold tests; rewrite <- Em; reflexivity).
    rewrite TT in B1, B2, B3. rewrite Er in A1. rewrite Er' in B1.
    assert (NS : forall f : nat -> Q, nth_error (series n f) t = Some (f t)).
    { intro f. unfold series. rewrite nth_error_map. rewrite (nth_error_nth' _ 0%nat) by (rewrite seq_length; lia). cbn. now rewrite seq_nth by lia. }
    exists r, r', (hits H t), (hits H' t), (ranks H t), (ranks H' t). rewrite !NS. repeat (split; auto).
  Qed.

  Lemma experiments_sorted hm st0 initial stream dyn dyn' : same_for_all_k ap -> (k <= k')%nat ->
    run m hm st0 initial stream = Ok dyn -> run m' hm st0 initial stream = Ok dyn' ->
    Forall2 Qle (d_hr dyn) (d_hr dyn') /\ Forall2 Qle (d_mrr dyn) (d_mrr dyn').
  Proof.
    intros SM L E E'. destruct (experiments_main _ _ _ _ _ _ E E') as (_ & _ & _ & _ & _ & model & tab & _ & _ & ST).
    apply (proj1 (experiment_main _ _ _ _ _ _ _ _ _ _ _ _ _ _ _)) in E as (H & R & ->).
    apply (proj1 (experiment_main _ _ _ _ _ _ _ _ _ _ _ _ _ _ _)) in E' as (H' & R' & ->).
    set (n := n_steps hm (length stream)) in *.
    assert (Ln : (n <= length stream)%nat) by (unfold n, n_steps; destruct (0 <? hm); lia).
    assert (NS : forall t (f : nat -> Q), (t < n)%nat -> nth_error (series n f) t = Some (f t)).
    { intros t f Lt. unfold series. rewrite nth_error_map. rewrite (nth_error_nth' _ 0%nat) by (rewrite seq_length; lia). cbn. now rewrite seq_nth by lia. }
    assert (G : forall t, (t < n)%nat -> (hits H t <= hits H' t)%Q /\ (ranks H t <= ranks H' t)%Q).
    { intros t Lt. destruct (nth_error stream t) as [c|] eqn:Ec. 2:{ apply nth_error_None in Ec. lia. }
      destruct (ST t c Lt Ec) as (_ & rows & rows' & h & h' & q & q' & A1 & A2 & A3 & A4 & A5 & A6 & B1 & B2 & B3 & B4).
      unfold reported in B1, B2, B3, B4. cbn [d_hr d_mrr] in B1, B2, B3, B4. rewrite NS in B1, B2, B3, B4 by auto.
      injection B1 as <-. injection B2 as <-. injection B3 as <-. injection B4 as <-.
      destruct (sorted_main ap _ _ k k' true false rows' SM L A2) as (r0 & E0 & _ & HH & MM).
      assert (r0 = rows) by congruence. subst r0. split; [|eapply MM; eauto]. eapply HH; eauto.
      rewrite <- tests_lengths. symmetry. eapply rows_length; eauto. }
    assert (FS : forall f g : nat -> Q, (forall t, (t < n)%nat -> (f t <= g t)%Q) -> Forall2 Qle (series n f) (series n g)).
    { intros f g FG. unfold series. assert (I : forall t, In t (seq 0 n) -> (t < n)%nat) by (intros t I; apply in_seq in I; lia).
      induction (seq 0 n) as [|a l IH]; cbn; constructor; [apply FG, I; now left|apply IH; intros; apply I; now right]. }
    unfold reported. cbn [d_hr d_mrr]. split; apply FS; intros t Lt; apply G; auto.
  Qed.
End Exp.
