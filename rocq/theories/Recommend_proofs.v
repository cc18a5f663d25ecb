(** Lemmas about [recommend]. *)
From Coq Require Import ZArith List Bool Lia Permutation.
From Verif Require Import Prelude Prelude_proofs DataPrep_model DataPrep_proofs.
From Verif Require Import Recommend_model Recommend_spec.
Import ListNotations.
Open Scope Z_scope.

Lemma zrange_In n x : In x (zrange n) <-> 0 <= x < Z.of_nat n.
Proof.
  unfold zrange. rewrite in_map_iff. split.
  - intros [k [<- H]]. apply in_seq in H. lia.
  - intros H. exists (Z.to_nat x). split; [lia|]. apply in_seq. lia.
Qed.

Lemma zrange_NoDup n : NoDup (zrange n).
Proof. unfold zrange. apply FinFun.Injective_map_NoDup; [intros a b; lia|apply seq_NoDup]. Qed.

Lemma zrange_nth n j x : nth_error (zrange n) j = Some x -> x = Z.of_nat j.
Proof.
  unfold zrange. intros H. rewrite nth_error_map in H.
  destruct (nth_error (seq 0 n) j) eqn:E; [|discriminate]. simpl in H. inversion H; subst.
  f_equal. pose proof (nth_error_nth (seq 0 n) j 0%nat E) as E'.
  assert (j < length (seq 0 n))%nat by (apply nth_error_Some; congruence).
  rewrite seq_length in H0. rewrite seq_nth in E' by auto. lia.
Qed.

Lemma zrange_len n : length (zrange n) = n.
Proof. unfold zrange. rewrite map_length, seq_length. reflexivity. Qed.

Lemma select_nth {A} : forall (mask : list bool) (l : list A) s j x,
  length mask = length l ->
  nth_error (select mask (map Z.of_nat (seq s (length l)))) j = Some x ->
  Z.of_nat s <= x /\ nth_error (select mask l) j = nth_error l (Z.to_nat x - s).
Proof.
  induction mask as [|b mask IH]; intros [|y l] s j x HL H; simpl in *; try discriminate.
  - destruct j; discriminate.
  - destruct b.
    + destruct j as [|j]; simpl in *.
      * inversion H; subst. rewrite Nat2Z.id, Nat.sub_diag. split; [lia|reflexivity].
      * destruct (IH l (S s) j x ltac:(lia) H) as [H1 H2]. split; [lia|].
        rewrite H2. replace (Z.to_nat x - s)%nat with (S (Z.to_nat x - S s)) by lia. reflexivity.
    + destruct (IH l (S s) j x ltac:(lia) H) as [H1 H2]. split; [lia|].
      rewrite H2. replace (Z.to_nat x - s)%nat with (S (Z.to_nat x - S s)) by lia. reflexivity.
Qed.

Lemma select_length {A B} : forall mask (l : list A) (l' : list B),
  length l = length l' -> length (select mask l) = length (select mask l').
Proof.
  induction mask as [|b mask IH]; intros [|x l] [|y l'] H; simpl in *; try discriminate; auto.
  - destruct b; auto.
  - destruct b; simpl; auto.
Qed.

Lemma NoDup_map_inj_in {A B} (f : A -> B) l :
  (forall x y, In x l -> In y l -> f x = f y -> x = y) -> NoDup l -> NoDup (map f l).
Proof.
  induction l as [|a l IH]; simpl; intros Hf ND; [constructor|].
  inversion ND; subst. constructor.
  - intros H. apply in_map_iff in H as [b [E Hb]]. assert (b = a) by (apply Hf; auto). subst; auto.
  - apply IH; auto.
Qed.

Section Core.
  Context {A : Type} (leb : A -> A -> bool).
  Hypothesis leb_trans : forall x y z, leb x y = true -> leb y z = true -> leb x z = true.
  Variable argpart : nat -> list A -> nat -> list nat.
  Hypothesis contract : argpartition_contract leb argpart.

  Lemma top_core i (a : list A) (cand : list Z) (scores : list A) k :
    length a = length cand -> NoDup cand -> (1 <= k <= length a)%nat ->
    (forall j x, nth_error cand j = Some x -> nth_error a j = nth_error scores (Z.to_nat x)) ->
    exists idx row,
      top_positions argpart i a k = Ok idx
      /\ take_all cand idx = Ok row
      /\ length row = k /\ NoDup row /\ incl row cand
      /\ (forall i j x y, In i row -> In j cand -> ~ In j row ->
            nth_error scores (Z.to_nat i) = Some x -> nth_error scores (Z.to_nat j) = Some y ->
            leb y x = true)
      /\ last_is_lowest leb scores row.
  Proof.
    intros HL ND Hk HS.
    destruct (contract i a (length a - k)%nat) as [P C]; [lia|].
    set (p := argpart i a (length a - k)) in *.
    assert (Lp : length p = length a) by (apply Permutation_length in P; rewrite seq_length in P; auto).
    assert (NDp : NoDup p) by (eapply Permutation_NoDup; [symmetry; exact P|apply seq_NoDup]).
    assert (Hp : forall n, In n p <-> (n < length a)%nat).
    { intros n. split; intros H.
      - eapply Permutation_in in H; [|exact P]. apply in_seq in H. lia.
      - eapply Permutation_in; [symmetry; exact P|]. apply in_seq. lia. }
    exists (rev (lastn k p)).
    unfold top_positions. destruct (Nat.ltb_spec (length a) k); [lia|].
    fold p.
    pose (f := fun n => nth n cand 0).
    exists (map f (rev (lastn k p))).
    assert (Hlast : forall n, In n (lastn k p) -> In n p).
    { intros n H0. destruct (lastn_suffix k p) as [pre ->]. apply in_or_app; right; auto. }
    assert (Hf : forall n, In n p -> nth_error cand n = Some (f n)).
    { intros n H0. apply Hp in H0. unfold f. apply nth_error_nth'. lia. }
    split; [reflexivity|]. split.
    { unfold take_all. apply mapM_ext_Ok. intros n Hn. rewrite <- in_rev in Hn.
      rewrite (Hf n (Hlast n Hn)). reflexivity. }
    assert (Lk : length (lastn k p) = k) by (rewrite lastn_length; lia).
    split; [rewrite map_length, rev_length; auto|].
    assert (NDl : NoDup (lastn k p)).
    { destruct (lastn_suffix k p) as [pre E]. rewrite E in NDp. apply NoDup_app_inv in NDp. tauto. }
    assert (f_inj : forall m n, In m p -> In n p -> f m = f n -> m = n).
    { intros m n Hm Hn E. apply (proj1 (NoDup_nth_error cand) ND).
      - apply Hp in Hm. lia.
      - rewrite (Hf m Hm), (Hf n Hn), E. reflexivity. }
    split.
    { apply NoDup_map_inj_in.
      - intros m n Hm Hn. rewrite <- in_rev in Hm, Hn. apply f_inj; auto.
      - apply NoDup_rev; auto. }
    split.
    { intros x Hx. apply in_map_iff in Hx as [n [<- Hn]]. rewrite <- in_rev in Hn.
      eapply nth_error_In. apply Hf; auto. }
    assert (Hpiv : exists m rest, lastn k p = m :: rest /\ nth_error p (length a - k) = Some m).
    { destruct (lastn k p) as [|m rest] eqn:E; [simpl in Lk; lia|]. exists m, rest. split; auto.
      destruct (lastn_suffix k p) as [pre Ep]. rewrite E in Ep. rewrite Ep.
      assert (length pre = (length a - k)%nat).
      { apply (f_equal (@length nat)) in Ep. rewrite app_length in Ep. simpl in *. lia. }
      rewrite nth_error_app2 by lia. rewrite H0, Nat.sub_diag. reflexivity. }
    destruct Hpiv as [m [rest [El Em]]].
    assert (Hm : In m p) by (eapply nth_error_In; eauto).
    assert (exists xm, nth_error a m = Some xm) as [xm Hxm].
    { apply Hp in Hm. destruct (nth_error a m) eqn:E; [eauto|]. apply nth_error_None in E. lia. }
    (* elements of the window are at least the pivot *)
    assert (Hge : forall n y, In n (lastn k p) -> nth_error a n = Some y -> leb xm y = true).
    { intros n y Hn Hy. destruct (lastn_suffix k p) as [pre Ep].
      assert (Lpre : length pre = (length a - k)%nat).
      { apply (f_equal (@length nat)) in Ep. rewrite app_length in Ep. lia. }
      apply In_nth_error in Hn as [j Hj].
      assert (Hj' : nth_error p (length pre + j) = Some n).
      { rewrite Ep, nth_error_app2 by lia. rewrite <- Hj. f_equal. lia. }
      destruct (C m xm (length pre + j)%nat n y Em Hxm Hj' Hy) as [_ G]. apply G. lia. }
    assert (Hle : forall n y, In n p -> ~ In n (lastn k p) -> nth_error a n = Some y -> leb y xm = true).
    { intros n y Hn Hnot Hy. destruct (lastn_suffix k p) as [pre Ep].
      assert (Lpre : length pre = (length a - k)%nat).
      { apply (f_equal (@length nat)) in Ep. rewrite app_length in Ep. lia. }
      assert (Hpre : In n pre) by (rewrite Ep in Hn; apply in_app_or in Hn as [|]; tauto).
      apply In_nth_error in Hpre as [j Hj].
      assert (j < length pre)%nat by (apply nth_error_Some; congruence).
      assert (Hj' : nth_error p j = Some n) by (rewrite Ep, nth_error_app1 by lia; auto).
      destruct (C m xm j n y Em Hxm Hj' Hy) as [G _]. apply G. lia. }
    split.
    - intros i0 j0 x y Hi Hj Hnj Hx Hy.
      apply in_map_iff in Hi as [n [<- Hn]]. rewrite <- in_rev in Hn.
      apply In_nth_error in Hj as [q Hq].
      assert (Hqp : In q p) by (apply Hp; rewrite HL; apply nth_error_Some; congruence).
      assert (Hqn : ~ In q (lastn k p)).
      { intros Hin. apply Hnj. apply in_map_iff. exists q. rewrite <- in_rev. split; auto.
        pose proof (Hf q Hqp). congruence. }
      apply leb_trans with xm.
      + apply (Hle q); auto. rewrite (HS q j0 Hq). auto.
      + apply (Hge n); auto. rewrite (HS n (f n)); auto.
    - intros pre l j x y E Hj Hx Hy.
      rewrite El in E. simpl in E. rewrite map_app in E. simpl in E.
      apply app_inj_tail in E as [_ E].
      apply in_map_iff in Hj as [n [<- Hn]]. rewrite <- in_rev in Hn.
      assert (x = xm).
      { rewrite <- E in Hx. rewrite <- (HS m (f m)) in Hx; [congruence|]. apply Hf; auto. }
      subst x. apply (Hge n); auto. rewrite (HS n (f n)); auto.
  Qed.
End Core.

Definition unseen_list (history : list (Z * Z)) (n_items : nat) (u : Z) : list Z :=
  filter (fun j => negb (existsb (fun p => (fst p =? u) && (snd p =? j)) history)) (zrange n_items).

Lemma existsb_seen history u j :
  existsb (fun p => (fst p =? u) && (snd p =? j)) history = true <-> In (u, j) history.
Proof.
  rewrite existsb_exists. split.
  - intros [[a b] [H E]]. apply andb_true_iff in E as [E1 E2]. simpl in *.
    apply Z.eqb_eq in E1, E2. subst; auto.
  - intros H. exists (u, j). split; auto. simpl. rewrite !Z.eqb_refl. reflexivity.
Qed.

Lemma unseen_list_In history n u j :
  In j (unseen_list history n u) <-> 0 <= j < Z.of_nat n /\ ~ In (u, j) history.
Proof.
  unfold unseen_list. rewrite filter_In, zrange_In, negb_true_iff.
  rewrite <- (existsb_seen history u j).
  destruct (existsb _ history); intuition congruence.
Qed.

Lemma unseen_select history n u :
  select (map negb (viewed_mask history n u)) (zrange n) = unseen_list history n u.
Proof.
  unfold viewed_mask, unseen_list. rewrite map_map. apply select_filter.
Qed.

Lemma n_unseen_length history n u : n_unseen history n u = length (unseen_list history n u).
Proof.
  unfold n_unseen, unseen_list. f_equal. apply filter_ext. intros j.
  destruct (in_dec _ (u, j) history) as [i|ni].
  - apply existsb_seen in i. rewrite i. reflexivity.
  - destruct (existsb _ history) eqn:E; auto. apply existsb_seen in E. contradiction.
Qed.

Lemma viewed_mask_length history n u : length (viewed_mask history n u) = n.
Proof. unfold viewed_mask. rewrite map_length, zrange_len. reflexivity. Qed.

Section Rec.
  Context {A : Type} (leb : A -> A -> bool).
  Hypothesis leb_trans : forall x y z, leb x y = true -> leb y z = true -> leb x z = true.
  Variable argpart : nat -> list A -> nat -> list nat.
  Hypothesis contract : argpartition_contract leb argpart.

  (** One user, internal ids. *)
  Lemma cand_filtered (st : rec_state A) u (scores : list A) j x :
    length scores = rs_n_items st ->
    nth_error (unseen_list (rs_history st) (rs_n_items st) u) j = Some x ->
    nth_error (select (map negb (viewed_mask (rs_history st) (rs_n_items st) u)) scores) j
    = nth_error scores (Z.to_nat x).
  Proof.
    intros HL H. rewrite <- unseen_select in H. unfold zrange in H. rewrite <- HL in H at 2.
    apply select_nth in H.
    - destruct H as [_ H]. rewrite Nat.sub_0_r in H. exact H.
    - rewrite map_length, viewed_mask_length. auto.
  Qed.

  Lemma select_scores_length (st : rec_state A) u (scores : list A) :
    length scores = rs_n_items st ->
    length (select (map negb (viewed_mask (rs_history st) (rs_n_items st) u)) scores)
    = length (unseen_list (rs_history st) (rs_n_items st) u).
  Proof.
    intros HL. rewrite <- unseen_select. apply select_length. rewrite zrange_len; auto.
  Qed.

  Definition enough (st : rec_state A) (filter_viewed : bool) (k : nat) (u : Z) : Prop :=
    filter_viewed = true -> (k <= n_unseen (rs_history st) (rs_n_items st) u)%nat.

  Lemma user_internal_ok (st : rec_state A) fv k i u scores :
    rs_scores st u = Ok scores -> length scores = rs_n_items st ->
    0 <= u < Z.of_nat (rs_n_users st) -> (1 <= k <= rs_n_items st)%nat ->
    enough st fv k u ->
    exists row,
      recommend_user argpart st fv true k i u = Ok row
      /\ is_top_k leb st fv u scores k row /\ last_is_lowest leb scores row.
  Proof.
    intros ES HL Hu Hk He. unfold recommend_user. rewrite ES. cbn [bind].
    destruct fv.
    - assert ((0 <=? u) && (u <? Z.of_nat (rs_n_users st)) = true) as ->
        by (apply andb_true_iff; rewrite Z.leb_le, Z.ltb_lt; lia).
      specialize (He eq_refl). rewrite n_unseen_length in He.
      destruct (top_core leb leb_trans argpart contract i
                  (select (map negb (viewed_mask (rs_history st) (rs_n_items st) u)) scores)
                  (unseen_list (rs_history st) (rs_n_items st) u) scores k)
        as [idx [row [E1 [E2 [H1 [H2 [H3 [H4 H5]]]]]]]].
      + apply select_scores_length; auto.
      + unfold unseen_list. apply NoDup_filter, zrange_NoDup.
      + rewrite select_scores_length; auto. lia.
      + intros j x. apply cand_filtered; auto.
      + cbv zeta. rewrite E1. cbn [bind]. rewrite unseen_select, E2. cbn [bind].
        rewrite andb_false_r. cbn [bind]. exists row. split; [reflexivity|]. split; [|exact H5]. split; [exact H1|]. split; [exact H2|]. split.
        * intros j Hj. apply H3, unseen_list_In in Hj as [B N]. split; auto.
        * intros a b x y Ha [Hb Hs] Hn. apply (H4 a b x y); auto. apply unseen_list_In. split; auto.
    - destruct (top_core leb leb_trans argpart contract i scores (zrange (rs_n_items st)) scores k)
        as [idx [row [E1 [E2 [H1 [H2 [H3 [H4 H5]]]]]]]].
      + rewrite zrange_len; auto.
      + apply zrange_NoDup.
      + lia.
      + intros j x H. apply zrange_nth in H. subst. rewrite Nat2Z.id. reflexivity.
      + rewrite E1. cbn [bind].
        assert (Er : map Z.of_nat idx = row).
        { unfold take_all in E2. apply mapM_Ok_iff in E2.
          clear - E2. induction E2 as [|n x l l' Hx F IH]; simpl; auto.
          destruct (nth_error (zrange (rs_n_items st)) n) eqn:E; [|discriminate].
          apply zrange_nth in E. inversion Hx; subst. f_equal; auto. }
        rewrite Er. exists row. split; [reflexivity|]. split; [|exact H5]. split; [exact H1|]. split; [exact H2|]. split.
        * intros j Hj. apply H3, zrange_In in Hj. split; auto. discriminate.
        * intros a b x y Ha [Hb _] Hn. apply (H4 a b x y); auto. apply zrange_In; auto.
  Qed.

  Lemma user_external (st : rec_state A) fv k i u :
    fv = false \/ (2 <= rs_n_items st)%nat ->
    recommend_user argpart st fv false k i u
    = do c <- recommend_user argpart st fv true k i u;
      mapM (fun j => getitem (new2old (m_items (rs_mappings st))) j) c.
  Proof.
    intros H. unfold recommend_user. destruct (rs_scores st u) as [scores|]; auto. cbn [bind].
    destruct fv.
    - destruct H as [H|H]; [discriminate|].
      destruct ((0 <=? u) && _); auto. cbv zeta.
      destruct (top_positions _ _ _ _) as [idx|]; auto. cbn [bind].
      destruct (take_all _ _) as [c|]; auto. cbn [bind].
      assert ((rs_n_items st =? 1)%nat = false) as -> by (apply Nat.eqb_neq; lia).
      reflexivity.
    - destruct (top_positions _ _ _ _) as [idx|]; reflexivity.
  Qed.

  Lemma user_filtered_err (st : rec_state A) internal k i u scores :
    rs_scores st u = Ok scores -> length scores = rs_n_items st ->
    0 <= u < Z.of_nat (rs_n_users st) ->
    ~ enough st true k u ->
    recommend_user argpart st true internal k i u = Err ValueError.
  Proof.
    intros ES HL Hu He. unfold recommend_user. rewrite ES. cbn [bind].
    assert ((0 <=? u) && (u <? Z.of_nat (rs_n_users st)) = true) as ->
      by (apply andb_true_iff; rewrite Z.leb_le, Z.ltb_lt; lia).
    cbv zeta. unfold top_positions. rewrite select_scores_length by auto.
    assert (length (unseen_list (rs_history st) (rs_n_items st) u) < k)%nat.
    { rewrite <- n_unseen_length. destruct (le_lt_dec k (n_unseen (rs_history st) (rs_n_items st) u)); auto.
      exfalso. apply He. intros _; auto. }
    apply Nat.ltb_lt in H. rewrite H. reflexivity.
  Qed.
End Rec.
