(** Tied unseen items, in terms of the rows a model has been given. *)
From Coq Require Import ZArith QArith List Bool Lia Permutation.
From Verif Require Import Prelude Prelude_proofs DataPrep_model DataPrep_spec DataPrep_proofs Recommend_model Recommend_spec Recommend_main Full_spec Full_rec Eval_spec Eval_model Eval_proofs Blind_spec Blind_rec Blind_main.
Import ListNotations.
Open Scope Z_scope.

Section Rows.
  Context {A : Type} (leb : A -> A -> bool).
  Hypothesis leb_total : forall x y, leb x y = true \/ leb y x = true.
  Hypothesis leb_trans : forall x y z, leb x y = true -> leb y z = true -> leb x z = true.
  Variables (st : rec_state A) (P : list row).
  Hypothesis D : describes st P.
  Variable k : nat.
  Hypothesis k1 : (1 <= k)%nat.
  Hypothesis two : (2 <= length (catalogue P))%nat.
  Notation fu := (f_of (m_users (rs_mappings st))).
  Notation fi := (f_of (m_items (rs_mappings st))).

  (** Unseen items of a known user against candidate indices. *)
  Lemma unseen_candidate uid u x j : fu uid = Some u -> fi x = Some j -> (In x (unseen P uid) <-> candidate st true u j).
  Proof.
    intros Hu Hx. unfold candidate, seen. rewrite unseen_In. split.
    - intros [_ N]. split; [eapply item_range; eauto|]. intros _ I. apply (ds_hist _ _ D) in I as [r [Hr [E1 E2]]].
      apply N. exists r. split; auto. split; [eapply f_inj; eauto|eapply f_inj_i; eauto].
    - intros [_ N]. split; [apply (ds_ki _ _ D); congruence|]. intros [r [Hr [<- <-]]]. apply (N eq_refl). apply (ds_hist _ _ D). eauto.
  Qed.

  Lemma offers_possible users rows :
    (forall u i j x y, In u users -> In i (unseen P u) -> In j (unseen P u) ->
       score_of st u i = Some x -> score_of st u j = Some y -> leb x y = true) ->
    Forall2 (fun u row => In u (map r_user P) /\ offer k P u row) users rows ->
    exists argpart, argpartition_contract leb argpart /\ recommend argpart st users k true false = Ok rows.
  Proof.
    intros T F. pose proof (n_items_count st P D) as NI.
    assert (X : exists us irows, Forall2 (fun uid u => fu uid = Some u /\ tied leb st true u) users us /\
      Forall2 (fun u irow => length irow = Nat.min k (rs_n_items st) /\ NoDup irow /\ forall j, In j irow -> candidate st true u j) us irows /\
      Forall2 (fun irow row => translated st irow row) irows rows).
    { induction F as [|uid row users rows [Ku [L [ND I]]] F IH].
      - exists [], []. auto.
      - destruct IH as [us [irs [F1 [F2 F3]]]]; [intros u0 i j x y Hu0; apply T; right; exact Hu0|].
        apply (ds_ku _ _ D) in Ku as Ku'. destruct (fu uid) as [u|] eqn:Hu; [|congruence].
        assert (KI : forall x, In x row -> exists j, fi x = Some j).
        { intros x Hx. apply I, unseen_In in Hx as [Hx _]. apply (ds_ki _ _ D) in Hx. destruct (fi x); [eauto|congruence]. }
        pose (idx := fun x => match fi x with Some j => j | None => -1 end).
        exists (u :: us), (map idx row :: irs). split; [|split].
        + constructor; auto. split; auto.
          assert (Ru : 0 <= u < Z.of_nat (rs_n_users st)) by (destruct (ds_wf _ _ D) as [_ [_ [WU _]]]; eapply WU; eauto).
          destruct (ds_wf _ _ D) as [_ [WS _]]. destruct (WS u Ru) as [s [ES LS]]. exists s. split; auto.
          intros i j x y Hi Hj Hx Hy.
          destruct (item_of st P D i) as [xi [Fi _]]; [apply Hi|]. destruct (item_of st P D j) as [xj [Fj _]]; [apply Hj|].
          apply (T uid xi xj x y); auto; [left; auto|now apply (unseen_candidate uid u xi i)|now apply (unseen_candidate uid u xj j)| |];
            unfold score_of; rewrite Hu; [rewrite Fi|rewrite Fj]; rewrite ES; auto.
        + constructor; auto. split; [|split].
          * rewrite map_length, L, NI. pose proof (unseen_short P uid Ku).
            assert (length row <= length (unseen P uid))%nat by (apply NoDup_incl_length; auto). lia.
          * apply Recommend_proofs.NoDup_map_inj_in; auto. intros x y Hx Hy E. destruct (KI x Hx) as [j Hj]. destruct (KI y Hy) as [j' Hj'].
            unfold idx in E. rewrite Hj, Hj' in E. subst. eapply f_inj_i; eauto.
          * intros j Hj. apply in_map_iff in Hj as [x [<- Hx]]. destruct (KI x Hx) as [j Hj]. unfold idx. rewrite Hj.
            apply (unseen_candidate uid u x j); auto.
        + constructor; auto. clear - KI D. induction row as [|x row IH]; cbn [map]; constructor.
          * destruct (KI x (or_introl eq_refl)) as [j Hj]. unfold idx. rewrite Hj. now apply (g_f_item st P D).
          * apply IH. intros y Hy. apply KI. right; auto. }
    destruct X as [us [irows [F1 [F2 F3]]]].
    apply (tied_possible leb leb_total leb_trans st users us k true false irows rows (ds_wf _ _ D) k1); auto; rewrite NI; auto. lia.
  Qed.

  Lemma offers_iff users rows :
    (forall u i j x y, In u users -> In i (unseen P u) -> In j (unseen P u) ->
       score_of st u i = Some x -> score_of st u j = Some y -> leb x y = true) ->
    (exists argpart, argpartition_contract leb argpart /\ recommend argpart st users k true false = Ok rows) <->
    Forall2 (fun u row => In u (map r_user P) /\ offer k P u row) users rows.
  Proof.
    intros T. split; [|now apply offers_possible]. intros [ap [C R]].
    pose proof (recommend_external leb leb_trans ap C st P D k k1 two users rows R) as F.
    assert (SV : forall u, In u users -> serves k P u) by (apply (recommend_iff leb leb_trans ap C st P D k k1 two users false); eauto).
    clear - F SV. induction F as [|u row users rows [H _] F IH]; constructor.
    - split; auto. apply (SV u). left; auto.
    - apply IH. intros v Hv. apply SV. right; auto.
  Qed.
End Rows.

(** A list of [k] items of [l] with or without a given one. *)
Lemma pick_with (l : list Z) t k : NoDup l -> In t l -> (1 <= k <= length l)%nat ->
  exists row, length row = k /\ NoDup row /\ incl row l /\ In t row.
Proof.
  intros ND I K. apply in_split in I as [a [b ->]]. rewrite app_length in K. cbn [length] in K.
  apply NoDup_remove in ND as [ND NI].
  exists (t :: firstn (k - 1) (a ++ b)). cbn [length]. rewrite firstn_length, app_length. split; [lia|]. split; [|split].
  - constructor; [intros H; apply NI; rewrite <- (firstn_skipn (k - 1) (a ++ b)); apply in_or_app; now left|].
    rewrite <- (firstn_skipn (k - 1) (a ++ b)) in ND. apply NoDup_app_inv in ND. tauto.
  - intros x [<-|H]; [apply in_or_app; right; left; auto|].
    assert (In x (a ++ b)) by (rewrite <- (firstn_skipn (k - 1) (a ++ b)); apply in_or_app; now left).
    apply in_app_or in H0 as [H0|H0]; apply in_or_app; [left|right; right]; auto.
  - now left.
Qed.
Lemma pick_without (l : list Z) t k : NoDup l -> (k < length l)%nat ->
  exists row, length row = k /\ NoDup row /\ incl row l /\ ~ In t row.
Proof.
  intros ND K. set (m := filter (fun x => negb (x =? t)) l).
  assert (L : (length l <= S (length m))%nat).
  { assert (H : incl l (t :: m)).
    { intros x Hx. destruct (Z.eqb_spec x t) as [->|N]; [now left|]. right. apply filter_In. split; auto. now destruct (Z.eqb_spec x t). }
    apply (NoDup_incl_length ND) in H. exact H. }
  assert (NM : NoDup m) by now apply NoDup_filter.
  exists (firstn k m). rewrite firstn_length. split; [lia|]. split; [|split].
  - rewrite <- (firstn_skipn k m) in NM. apply NoDup_app_inv in NM. tauto.
  - intros x H. assert (Hm : In x m) by (rewrite <- (firstn_skipn k m); apply in_or_app; now left). now apply filter_In in Hm.
  - intros H. assert (Hm : In t m) by (rewrite <- (firstn_skipn k m); apply in_or_app; now left). apply filter_In in Hm as [_ Hm].
    rewrite Z.eqb_refl in Hm. discriminate.
Qed.
Lemma offers_with k P users test (want : list bool) : (1 <= k)%nat ->
  Forall2 (fun u t => In u (map r_user P) /\ In t (unseen P u) /\ (k < length (unseen P u))%nat) users test -> length want = length users ->
  exists rows, Forall2 (fun u row => In u (map r_user P) /\ offer k P u row) users rows /\
    Forall2 (fun rt b => In (snd rt) (fst rt) <-> b = true) (combine rows test) want.
Proof.
  intros K F. revert want. induction F as [|u t users test [Ku [I L]] F IH]; intros [|b want] LW; try discriminate.
  - exists []. split; constructor.
  - destruct (IH want) as [rows [R1 R2]]; [cbn in LW; congruence|].
    assert (X : exists row, offer k P u row /\ (In t row <-> b = true)).
    { destruct b.
      - destruct (pick_with (unseen P u) t k (unseen_NoDup P u) I) as [row [H1 [H2 [H3 H4]]]]; [lia|]. exists row. split; [repeat split; auto|tauto].
      - destruct (pick_without (unseen P u) t k (unseen_NoDup P u) L) as [row [H1 [H2 [H3 H4]]]]. exists row. split; [repeat split; auto|]. split; [tauto|discriminate]. }
    destruct X as [row [O E]]. exists (row :: rows). split; constructor; auto.
Qed.
Lemma hits_count rows test want : length rows = length test ->
  Forall2 (fun rt b => In (snd rt) (fst rt) <-> b = true) (combine rows test) want ->
  hits rows test = length (filter (fun b => b) want).
Proof.
  intros _ F. unfold hits. induction F as [|rt b l want H F IH]; cbn [filter]; auto.
  destruct (in_dec Z.eq_dec (snd rt) (fst rt)) as [I|N].
  - apply H in I. subst b. cbn [length]. now rewrite IH.
  - destruct b; auto. exfalso. apply N, H. auto.
Qed.
