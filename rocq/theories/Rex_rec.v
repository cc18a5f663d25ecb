(** Recommendations of a model that knows the items of [E] and whose users have the rows [P]. *)
From Coq Require Import ZArith QArith List Bool Lia Permutation.
From Verif Require Import Prelude Prelude_proofs DataPrep_model DataPrep_spec DataPrep_proofs Recommend_model Recommend_spec Recommend_main Full_spec Full_rec Rex_spec.
Import ListNotations.
Open Scope Z_scope.

Lemma open_In E P u i : In i (open_to E P u) <-> In i (map r_item E) /\ ~ exists r, In r P /\ r_user r = u /\ r_item r = i.
Proof.
  unfold open_to. rewrite filter_In, catalogue_In, negb_true_iff. split; intros [H1 H2]; split; auto.
  - intros H. apply took_true in H. congruence.
  - destruct (took P u i) eqn:Q; auto. exfalso. apply H2. now apply took_true.
Qed.
Lemma open_NoDup E P u : NoDup (open_to E P u).
Proof. apply NoDup_filter, NoDup_nodup. Qed.
Lemma open_short E P u : incl (map r_item P) (map r_item E) -> In u (map r_user P) -> (length (open_to E P u) < length (catalogue E))%nat.
Proof.
  intros C H. apply in_map_iff in H as [r [Q I]].
  assert (X : NoDup (r_item r :: open_to E P u)).
  { constructor; [|apply open_NoDup]. intros H. apply open_In in H as [_ H]. apply H. eauto. }
  apply (NoDup_incl_length X). intros i [<-|Hi].
  - apply catalogue_In. apply C. now apply in_map.
  - unfold open_to in Hi. now apply filter_In in Hi as [Hi _].
Qed.

Section Rec.
  Context {A : Type} (leb : A -> A -> bool).
  Hypothesis trans : forall x y z, leb x y = true -> leb y z = true -> leb x z = true.
  Variable argpart : nat -> list A -> nat -> list nat.
  Hypothesis Con : argpartition_contract leb argpart.
  Variables (st : rec_state A) (Ev P : list row).

  Notation fu := (f_of (m_users (rs_mappings st))).
  Notation fi := (f_of (m_items (rs_mappings st))).

  (** The state of such a model. *)
  Record rdescribes : Prop := mkRdescribes {
    rd_wf : wf_state st;
    rd_users : bij (m_users (rs_mappings st)) 0;
    rd_items : bij (m_items (rs_mappings st)) 0;
    rd_nu : Z.of_nat (rs_n_users st) = n_indices (m_users (rs_mappings st));
    rd_ni : Z.of_nat (rs_n_items st) = n_indices (m_items (rs_mappings st));
    rd_ku : forall k, fu k <> None <-> In k (map r_user P);
    rd_ki : forall k, fi k <> None <-> In k (map r_item Ev);
    rd_sub : incl (map r_item P) (map r_item Ev);
    rd_hist : forall u j, In (u, j) (rs_history st) <->
      exists r, In r P /\ fu (r_user r) = Some u /\ fi (r_item r) = Some j }.
  Hypothesis D : rdescribes.

  Lemma g_f_item j x : g_of (m_items (rs_mappings st)) j = Some x <-> fi x = Some j.
  Proof. destruct (rd_items D) as [_ [B _]]. symmetry. apply B. Qed.
  Lemma f_inj k k' v : fu k = Some v -> fu k' = Some v -> k = k'.
  Proof. destruct (rd_users D) as [_ [B _]]. rewrite !B. congruence. Qed.
  Lemma f_inj_i k k' v : fi k = Some v -> fi k' = Some v -> k = k'.
  Proof. destruct (rd_items D) as [_ [B _]]. rewrite !B. congruence. Qed.
  Lemma item_range x j : fi x = Some j -> 0 <= j < Z.of_nat (rs_n_items st).
  Proof. intros H. rewrite (rd_ni D). destruct (rd_items D) as [_ [_ R]]. apply g_f_item in H. apply R. eauto. Qed.
  Lemma item_of j : 0 <= j < Z.of_nat (rs_n_items st) -> exists x, fi x = Some j /\ In x (map r_item Ev).
  Proof.
    intros H. destruct (rd_wf D) as [_ [_ [_ W]]]. destruct (W j H) as [x Hx]. apply g_f_item in Hx.
    exists x. split; auto. apply (rd_ki D). congruence.
  Qed.

  (** Items of the catalogue against indices. *)
  Lemma count_by (f : Z -> bool) (g : Z -> bool) :
    (forall x j, fi x = Some j -> f x = g j) ->
    length (filter f (catalogue Ev)) = length (filter g (zrange (rs_n_items st))).
  Proof.
    intros H. pose (idx := fun x => match fi x with Some j => j | None => -1 end).
    assert (NG : NoDup (filter g (zrange (rs_n_items st)))).
    { apply NoDup_filter. unfold zrange. apply FinFun.Injective_map_NoDup; [intros a b; lia|apply seq_NoDup]. }
    assert (K : forall x, In x (catalogue Ev) -> exists j, fi x = Some j).
    { intros x Hx. apply catalogue_In in Hx. apply (rd_ki D) in Hx. destruct (fi x) as [j|]; [eauto|congruence]. }
    assert (NF : NoDup (map idx (filter f (catalogue Ev)))).
    { assert (ND : NoDup (filter f (catalogue Ev))) by apply NoDup_filter, NoDup_nodup.
      assert (KK : forall x, In x (filter f (catalogue Ev)) -> exists j, fi x = Some j) by (intros x Hx; apply filter_In in Hx as [Hx _]; auto).
      induction (filter f (catalogue Ev)) as [|x l IH]; cbn; [constructor|]. inversion ND; subst. constructor.
      - intros Hi. apply in_map_iff in Hi as [y [E Hy]]. destruct (KK x (or_introl eq_refl)) as [j Hj].
        destruct (KK y (or_intror Hy)) as [j' Hj']. unfold idx in E. rewrite Hj, Hj' in E. subst.
        assert (x = y) by (eapply f_inj_i; eauto). subst. contradiction.
      - apply IH; auto. intros y Hy. apply KK. now right. }
    rewrite <- (map_length idx). apply Nat.le_antisymm; apply NoDup_incl_length; auto; intros j Hj.
    - apply in_map_iff in Hj as [x [E Hx]]. apply filter_In in Hx as [Hx Fx]. destruct (K x Hx) as [j' Hj'].
      unfold idx in E. rewrite Hj' in E. subst j'. apply filter_In. rewrite <- (H _ _ Hj'). split; auto.
      pose proof (item_range _ _ Hj'). unfold zrange. apply in_map_iff. exists (Z.to_nat j). split; [lia|]. apply in_seq. lia.
    - apply filter_In in Hj as [Hj Gj]. unfold zrange in Hj. apply in_map_iff in Hj as [n [E Hn]]. apply in_seq in Hn.
      destruct (item_of j) as [x [Hx Ix]]; [lia|]. apply in_map_iff. exists x. unfold idx. rewrite Hx. split; auto.
      apply filter_In. split; [now apply catalogue_In|]. now rewrite (H _ _ Hx).
  Qed.
  Lemma n_items_count : rs_n_items st = length (catalogue Ev).
  Proof.
    pose proof (count_by (fun _ => true) (fun _ => true) (fun _ _ _ => eq_refl)) as H.
    rewrite !filter_all in H by auto. rewrite H. unfold zrange. now rewrite map_length, seq_length.
  Qed.
  Lemma n_unseen_count uid u : fu uid = Some u -> n_unseen (rs_history st) (rs_n_items st) u = length (open_to Ev P uid).
  Proof.
    intros Hu. symmetry. unfold n_unseen, open_to. apply count_by. intros x j Hx.
    match goal with |- _ = if ?d then _ else _ => destruct d as [I|N] end.
    - apply (rd_hist D) in I as [r [Hr [E1 E2]]]. assert (r_user r = uid) by (eapply f_inj; eauto).
      assert (r_item r = x) by (eapply f_inj_i; eauto). apply negb_false_iff. apply took_true. eauto.
    - apply negb_true_iff. destruct (took P uid x) eqn:E; auto. exfalso. apply N. apply took_true in E as [r [Hr [E1 E2]]].
      apply (rd_hist D). exists r. subst. auto.
  Qed.

  Variable k : nat.
  Hypothesis k1 : (1 <= k)%nat.
  Hypothesis two : (2 <= length (catalogue Ev))%nat.

  Lemma enough_serves uid u : fu uid = Some u ->
    ((Nat.min k (rs_n_items st) <= n_unseen (rs_history st) (rs_n_items st) u)%nat <-> (k <= length (open_to Ev P uid))%nat).
  Proof.
    intros Hu. rewrite (n_unseen_count _ _ Hu), n_items_count.
    assert (In uid (map r_user P)) by (apply (rd_ku D); congruence).
    pose proof (open_short Ev P uid (rd_sub D) H). lia.
  Qed.
  Lemma recommend_iff users internal :
    (exists rows, recommend argpart st users k true internal = Ok rows) <-> forall u, In u users -> serves_from k Ev P u.
  Proof.
    destruct (recommend_outcome_main leb trans argpart Con st users k true internal (rd_wf D) k1
                ltac:(rewrite n_items_count; auto)) as [H _]. rewrite H. split; intros G uid I.
    - destruct (G uid I) as [u [Hu E]]. split; [apply (rd_ku D); congruence|]. apply (enough_serves _ _ Hu). auto.
    - destruct (G uid I) as [Ku E]. apply (rd_ku D) in Ku. destruct (fu uid) as [u|] eqn:Hu; [|congruence].
      exists u. split; auto. intros _. now apply (enough_serves _ _ Hu).
  Qed.

  Lemma recommend_external users rows : recommend argpart st users k true false = Ok rows ->
    Forall2 (fun uid row => offer_from k Ev P uid row /\ best_from leb st Ev P uid row) users rows.
  Proof.
    intros R. assert (SV : forall u, In u users -> serves_from k Ev P u) by (apply (recommend_iff users false); eauto).
    pose proof (recommend_top_k_main leb trans argpart Con st users k true false rows (rd_wf D) k1
      ltac:(rewrite n_items_count; lia) ltac:(rewrite n_items_count; auto) R) as F.
    clear R. induction F as [|uid row users rows H F IH]; [constructor|]. constructor; [|apply IH; intros; apply SV; now right].
    destruct (SV uid (or_introl eq_refl)) as [Ku Ek]. pose proof (open_short Ev P uid (rd_sub D) Ku) as Sh.
    destruct H as [u [scores [irow [Hu [Hs [[L [ND [Cand Top]]] Tr]]]]]]. rewrite n_items_count in L.
    assert (Len : length row = k) by (rewrite <- (Forall2_len _ _ _ Tr); lia).
    assert (T1 : forall x, In x row -> exists j, In j irow /\ fi x = Some j).
    { intros x Hx. destruct (Forall2_In_r _ _ _ _ Tr Hx) as [j [Hj E]]. exists j. split; auto. now apply g_f_item. }
    assert (T2 : forall j, In j irow -> exists x, In x row /\ fi x = Some j).
    { intros j Hj. destruct (Forall2_In_l _ _ _ _ Tr Hj) as [x [Hx E]]. exists x. split; auto. now apply g_f_item. }
    assert (CU : forall x j, fi x = Some j -> (candidate st true u j <-> In x (open_to Ev P uid))).
    { intros x j Hx. unfold candidate, seen. rewrite open_In, (rd_hist D). split.
      - intros [_ N]. specialize (N eq_refl). split; [apply (rd_ki D); congruence|]. intros [r [Hr [E1 E2]]]. apply N.
        exists r. subst. auto.
      - intros [_ N]. split; [eapply item_range; eauto|]. intros _ [r [Hr [E1 E2]]]. apply N. exists r. split; auto.
        split; [eapply f_inj; eauto|eapply f_inj_i; eauto]. }
    split; [split; [auto|split]|].
    - assert (NM : forall l l', Forall2 (fun j x => g_of (m_items (rs_mappings st)) j = Some x) l l' -> NoDup l -> NoDup l').
      { clear -D. induction 1 as [|j x l l' E F IH]; intros N; [constructor|]. inversion N; subst. constructor; auto.
        intros Hx. destruct (Forall2_In_r _ _ _ _ F Hx) as [j' [Hj' E']]. apply g_f_item in E. apply g_f_item in E'.
        assert (j = j') by congruence. now subst. }
      now apply (NM irow).
    - intros x Hx. destruct (T1 x Hx) as [j [Hj E]]. apply (CU _ _ E). now apply Cand.
    - intros i j x y Hi Hj Nj Sx Sy. destruct (T1 i Hi) as [ii [Ii Ei]].
      assert (Kj : In j (map r_item Ev)) by (now apply open_In in Hj). apply (rd_ki D) in Kj.
      destruct (fi j) as [jj|] eqn:Ej; [|congruence].
      unfold score_of in Sx, Sy. rewrite Hu, Ei, Hs in Sx. rewrite Hu, Ej, Hs in Sy.
      apply (Top ii jj x y); auto; [now apply (CU _ _ Ej)|].
      intros Ij. destruct (T2 jj Ij) as [x' [Hx' E']]. apply Nj. assert (x' = j) by (eapply f_inj_i; eauto). now subst.
  Qed.
  Lemma recommend_internal users rows : recommend argpart st users k true true = Ok rows ->
    length rows = length users /\
    Forall (fun row => length row = k /\ NoDup row /\ forall j, In j row -> 0 <= j < Z.of_nat (length (catalogue Ev))) rows.
  Proof.
    intros R. assert (SV : forall u, In u users -> serves_from k Ev P u) by (apply (recommend_iff users true); eauto).
    pose proof (recommend_top_k_main leb trans argpart Con st users k true true rows (rd_wf D) k1
      ltac:(rewrite n_items_count; lia) ltac:(rewrite n_items_count; auto) R) as F.
    split; [symmetry; eapply Forall2_len; eauto|].
    clear R. induction F as [|uid row users rows H F IH]; constructor; [|apply IH; intros; apply SV; now right].
    destruct (SV uid (or_introl eq_refl)) as [Ku Ek]. pose proof (open_short Ev P uid (rd_sub D) Ku) as Sh.
    destruct H as [u [scores [irow [Hu [Hs [[L [ND [Cand Top]]] ->]]]]]]. rewrite n_items_count in L.
    split; [lia|]. split; auto. intros j Hj. rewrite <- n_items_count. now apply Cand.
  Qed.
End Rec.
