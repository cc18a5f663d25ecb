(** Every table of rows that meets the specification of [recommend] is returned for some
    behaviour of argpartition. *)
From Coq Require Import ZArith QArith List Bool Lia Permutation Sorted.
From Verif Require Import Prelude Prelude_proofs DataPrep_model DataPrep_proofs Recommend_model Recommend_spec Recommend_proofs Recommend_main.
Import ListNotations.
Open Scope Z_scope.

Section Possible.
  Context {A : Type} (leb : A -> A -> bool).
  Hypothesis leb_total : forall x y, leb x y = true \/ leb y x = true.
  Hypothesis leb_trans : forall x y z, leb x y = true -> leb y z = true -> leb x z = true.

  (** Some index array within the contract: sorted positions. *)
  Definition leb_at (a : list A) (m n : nat) : bool :=
    match nth_error a m, nth_error a n with
    | Some x, Some y => leb x y
    | None, _ => true
    | Some _, None => false
    end.
  Definition positions (a : list A) : list nat := sort_stable (leb_at a) (seq 0 (length a)).
  Lemma leb_at_total a m n : leb_at a m n = true \/ leb_at a n m = true.
  Proof. unfold leb_at. destruct (nth_error a m), (nth_error a n); auto. Qed.
  Lemma leb_at_trans a l m n : leb_at a l m = true -> leb_at a m n = true -> leb_at a l n = true.
  Proof. unfold leb_at. destruct (nth_error a l), (nth_error a m), (nth_error a n); try congruence. apply leb_trans. Qed.

  (** An index array that meets the contract for [a] and [kth]. *)
  Definition valid (p : list nat) (a : list A) (kth : nat) : Prop :=
    Permutation p (seq 0 (length a))
    /\ forall m x j n y, nth_error p kth = Some m -> nth_error a m = Some x -> nth_error p j = Some n -> nth_error a n = Some y ->
         ((j < kth)%nat -> leb y x = true) /\ ((kth <= j)%nat -> leb x y = true).
  (** The same computed. *)
  Definition pivot_check (p : list nat) (a : list A) (kth : nat) : bool :=
    match nth_error p kth with
    | None => true
    | Some m => match nth_error a m with
      | None => true
      | Some x => forallb (fun j => match nth_error p j with
          | None => true
          | Some n => match nth_error a n with
            | None => true
            | Some y => if (j <? kth)%nat then leb y x else leb x y end end) (seq 0 (length p))
      end
    end.
  Definition perm_check (p : list nat) (n : nat) : bool :=
    if list_eq_dec Nat.eq_dec (sort_stable Nat.leb p) (sort_stable Nat.leb (seq 0 n)) then true else false.
  Lemma perm_check_true p n : perm_check p n = true <-> Permutation p (seq 0 n).
  Proof.
    unfold perm_check. destruct (list_eq_dec _ _ _) as [E|E]; split; auto; try discriminate.
    - intros _. etransitivity; [apply (sort_stable_perm Nat.leb)|]. rewrite E. symmetry. apply sort_stable_perm.
    - intros P. exfalso. apply E.
      assert (T : forall x y, Nat.leb x y = true \/ Nat.leb y x = true) by (intros x y; rewrite !Nat.leb_le; lia).
      assert (TR : forall x y z, Nat.leb x y = true -> Nat.leb y z = true -> Nat.leb x z = true) by (intros x y z; rewrite !Nat.leb_le; lia).
      assert (U : forall l l', StronglySorted (fun x y => Nat.leb x y = true) l -> StronglySorted (fun x y => Nat.leb x y = true) l' -> Permutation l l' -> l = l').
      { induction l as [|x l IH]; intros l' S S' Q.
        - apply Permutation_nil in Q. auto.
        - destruct l' as [|y l']; [symmetry in Q; apply Permutation_nil in Q; discriminate|].
          inversion S as [|? ? S1 F1]; inversion S' as [|? ? S2 F2]; subst. rewrite Forall_forall in F1, F2.
          assert (x = y).
          { assert (I1 : In x (y :: l')) by (apply (Permutation_in x Q); left; auto).
            assert (I2 : In y (x :: l)) by (symmetry in Q; apply (Permutation_in y Q); left; auto).
            destruct I1 as [->|I1]; auto. destruct I2 as [->|I2]; auto.
            apply F2 in I1. apply F1 in I2. rewrite Nat.leb_le in *. lia. }
          subst. f_equal. apply IH; auto. eapply Permutation_cons_inv; eauto. }
      apply U; [apply sort_stable_sorted; auto|apply sort_stable_sorted; auto|].
      etransitivity; [symmetry; apply sort_stable_perm|]. etransitivity; [exact P|]. apply sort_stable_perm.
  Qed.
  Lemma pivot_check_true p a kth : (kth < length p)%nat -> pivot_check p a kth = true <->
    forall m x j n y, nth_error p kth = Some m -> nth_error a m = Some x -> nth_error p j = Some n -> nth_error a n = Some y ->
         ((j < kth)%nat -> leb y x = true) /\ ((kth <= j)%nat -> leb x y = true).
  Proof.
    intros K. unfold pivot_check. destruct (nth_error p kth) as [m|] eqn:Em; [|apply nth_error_None in Em; lia].
    destruct (nth_error a m) as [x|] eqn:Ex.
    - rewrite forallb_forall. split.
      + intros H m' x' j n y E1 E2 E3 E4. inversion E1; subst m'. rewrite Ex in E2. inversion E2; subst x'.
        assert (L : (j < length p)%nat) by (apply nth_error_Some; congruence).
        specialize (H j ltac:(apply in_seq; lia)). rewrite E3, E4 in H.
        destruct (Nat.ltb_spec j kth); split; auto; lia.
      + intros H j _. destruct (nth_error p j) as [n|] eqn:En; auto. destruct (nth_error a n) as [y|] eqn:Ey; auto.
        destruct (H m x j n y eq_refl Ex En Ey) as [H1 H2]. destruct (Nat.ltb_spec j kth); auto.
    - split; auto. intros _ m' x' j n y E1 E2. inversion E1; subst. congruence.
  Qed.
  Definition valid_check (p : list nat) (a : list A) (kth : nat) : bool := perm_check p (length a) && pivot_check p a kth.
  Lemma valid_check_true p a kth : (kth < length a)%nat -> valid_check p a kth = true <-> valid p a kth.
  Proof.
    intros K. unfold valid_check, valid. rewrite andb_true_iff, perm_check_true. split; intros [P C]; split; auto;
      pose proof (Permutation_length P) as L; rewrite seq_length in L; eapply (pivot_check_true p a kth); eauto; lia.
  Qed.

  Lemma positions_perm a : Permutation (positions a) (seq 0 (length a)).
  Proof. symmetry. apply sort_stable_perm. Qed.
  Lemma positions_valid a kth : (kth < length a)%nat -> valid (positions a) a kth.
  Proof.
    intros K. split; [apply positions_perm|]. intros m x j n y Em Ex En Ey.
    assert (SS : StronglySorted (fun m n => leb_at a m n = true) (positions a)) by
      (apply sort_stable_sorted; [apply leb_at_total|apply leb_at_trans]).
    apply nth_error_split in Em as [pre [post [E L]]]. rewrite E in SS, En.
    destruct (StronglySorted_split _ _ _ _ SS) as [S1 S2]. split; intros J.
    - rewrite nth_error_app1 in En by lia. apply nth_error_In in En. apply S1 in En. unfold leb_at in En. rewrite Ex, Ey in En. auto.
    - rewrite nth_error_app2 in En by lia. destruct (j - length pre)%nat as [|q].
      + cbn in En. inversion En; subst. assert (x = y) by congruence. subst. destruct (leb_total y y); auto.
      + cbn in En. apply nth_error_In in En. apply S2 in En. unfold leb_at in En. rewrite Ex, Ey in En. auto.
  Qed.

  (** The behaviour that returns given index arrays where they are valid. *)
  Definition chosen_argpart (want : list (list nat)) (i : nat) (a : list A) (kth : nat) : list nat :=
    match nth_error want i with
    | Some p => if valid_check p a kth then p else positions a
    | None => positions a
    end.
  Lemma chosen_contract want : argpartition_contract leb (chosen_argpart want).
  Proof.
    intros i a kth K. change (valid (chosen_argpart want i a kth) a kth). unfold chosen_argpart.
    destruct (nth_error want i) as [p|]; [|now apply positions_valid].
    destruct (valid_check p a kth) eqn:E; [now apply valid_check_true|now apply positions_valid].
  Qed.

  (** An index array for a row of candidates. *)
  Fixpoint index_of (x : Z) (l : list Z) : nat :=
    match l with [] => 0 | y :: r => if x =? y then 0 else S (index_of x r) end.
  Lemma index_of_nth x l : In x l -> nth_error l (index_of x l) = Some x.
  Proof.
    induction l as [|y l IH]; cbn [index_of]; intros H; [destruct H|]. destruct (Z.eqb_spec x y) as [->|N]; auto.
    destruct H as [->|H]; [congruence|]. now apply IH.
  Qed.
  Lemma index_of_inj x y l : In x l -> In y l -> index_of x l = index_of y l -> x = y.
  Proof. intros Hx Hy E. apply index_of_nth in Hx. apply index_of_nth in Hy. congruence. Qed.
  Definition wanted (cand row : list Z) : list nat :=
    let idx := map (fun x => index_of x cand) row in
    filter (fun n => if in_dec Nat.eq_dec n idx then false else true) (seq 0 (length cand)) ++ rev idx.

  Lemma wanted_perm cand row : NoDup cand -> NoDup row -> incl row cand -> Permutation (wanted cand row) (seq 0 (length cand)).
  Proof.
    intros NC NR I. unfold wanted. set (idx := map (fun x => index_of x cand) row).
    assert (NI : NoDup idx) by (apply NoDup_map_inj_in; auto; intros x y Hx Hy; apply index_of_inj; auto).
    apply NoDup_Permutation; [|apply seq_NoDup|].
    - apply NoDup_app_intro; [apply NoDup_filter, seq_NoDup|now apply NoDup_rev|].
      intros n H1 H2. apply filter_In in H1 as [_ H1]. rewrite <- in_rev in H2. destruct (in_dec Nat.eq_dec n idx); congruence.
    - intros n. rewrite in_app_iff, filter_In, <- in_rev. split.
      + intros [[H _]|H]; auto. unfold idx in H. apply in_map_iff in H as [x [<- Hx]]. apply I in Hx.
        apply in_seq. apply index_of_nth in Hx. assert (index_of x cand < length cand)%nat by (apply nth_error_Some; congruence). lia.
      + intros H. destruct (in_dec Nat.eq_dec n idx); auto.
  Qed.
  Lemma lastn_wanted cand row : lastn (length row) (wanted cand row) = rev (map (fun x => index_of x cand) row).
  Proof.
    unfold wanted, lastn. set (idx := map _ row). assert (L : length (rev idx) = length row) by (unfold idx; rewrite rev_length, map_length; auto).
    rewrite app_length, L. rewrite skipn_app, skipn_all2 by lia. cbn [app].
    replace (_ - _)%nat with 0%nat by lia. reflexivity.
  Qed.

  Lemma want_core want i (a : list A) (cand : list Z) (scores : list A) row :
    nth_error want i = Some (wanted cand row) ->
    length a = length cand -> NoDup cand -> row <> [] -> NoDup row -> incl row cand ->
    (forall j x, nth_error cand j = Some x -> nth_error a j = nth_error scores (Z.to_nat x)) ->
    (forall x, In x cand -> exists y, nth_error scores (Z.to_nat x) = Some y) ->
    (forall i j x y, In i row -> In j cand -> ~ In j row ->
       nth_error scores (Z.to_nat i) = Some x -> nth_error scores (Z.to_nat j) = Some y -> leb y x = true) ->
    last_is_lowest leb scores row ->
    exists idx, top_positions (chosen_argpart want) i a (length row) = Ok idx /\ take_all cand idx = Ok row.
  Proof.
    intros W La NC NE NR I HS HC HT HL.
    assert (LR : (length row <= length cand)%nat) by (apply NoDup_incl_length; auto).
    assert (L1 : (1 <= length row)%nat) by (destruct row; [congruence|cbn; lia]).
    exists (map (fun x => index_of x cand) row). unfold top_positions.
    destruct (Nat.ltb_spec (length a) (length row)); [lia|].
    assert (V : valid (wanted cand row) a (length a - length row)).
    { split; [rewrite La; now apply wanted_perm|]. intros m x j n y Em Ex En Ey.
      destruct (exists_last NE) as [pre [l El]].
      assert (Lw : length (wanted cand row) = length cand) by (pose proof (Permutation_length (wanted_perm cand row NC NR I)) as P; rewrite seq_length in P; auto).
      assert (Em' : m = index_of l cand).
      { unfold wanted in Em, Lw. set (idx := map _ row) in *. assert (Li : length (rev idx) = length row) by (unfold idx; rewrite rev_length, map_length; auto).
        rewrite app_length, Li in Lw. rewrite nth_error_app2 in Em by lia.
        replace (length a - length row - _)%nat with 0%nat in Em by lia.
        unfold idx in Em. rewrite El, map_app, rev_app_distr in Em. cbn in Em. congruence. }
      assert (Il : In l row) by (rewrite El; apply in_or_app; right; left; auto).
      pose proof (index_of_nth l cand (I l Il)) as Nl. subst m. rewrite (HS _ _ Nl) in Ex.
      assert (Hn : (n < length cand)%nat) by (rewrite <- La; apply nth_error_Some; congruence).
      destruct (nth_error cand n) as [c|] eqn:Ec; [|apply nth_error_None in Ec; lia]. rewrite (HS _ _ Ec) in Ey.
      assert (Hc : In c cand) by (eapply nth_error_In; eauto).
      assert (Cn : index_of c cand = n).
      { apply (proj1 (NoDup_nth_error cand) NC); [apply nth_error_Some; rewrite (index_of_nth c cand Hc); discriminate|].
        rewrite (index_of_nth c cand Hc). congruence. }
      unfold wanted in En, Lw. set (idx := map _ row) in *. assert (Li : length (rev idx) = length row) by (unfold idx; rewrite rev_length, map_length; auto).
      rewrite app_length, Li in Lw. split; intros J.
      - rewrite nth_error_app1 in En by lia. apply nth_error_In, filter_In in En as [_ En]. destruct (in_dec Nat.eq_dec n idx) as [|N]; [discriminate|].
        apply (HT l c x y); auto. intros Hr. apply N. unfold idx. apply in_map_iff. eauto.
      - rewrite nth_error_app2 in En by lia. apply nth_error_In in En. rewrite <- in_rev in En. unfold idx in En. apply in_map_iff in En as [d [Ed Hd]].
        assert (d = c) by (apply (index_of_inj d c cand (I d Hd) Hc); congruence). subst d. apply (HL pre l c x y); auto. }
    split.
    - unfold chosen_argpart. rewrite W. assert (KK : (length a - length row < length a)%nat) by lia. rewrite (proj2 (valid_check_true _ _ _ KK) V). rewrite lastn_wanted, rev_involutive. reflexivity.
    - unfold take_all. apply mapM_Ok_iff. clear - I. induction row as [|x row IH]; constructor.
      + rewrite (index_of_nth x cand); auto. apply I. left; auto.
      + apply IH. intros y Hy. apply I. right; auto.
  Qed.

  Definition cands (st : rec_state A) (fv : bool) (u : Z) : list Z :=
    if fv then unseen_list (rs_history st) (rs_n_items st) u else zrange (rs_n_items st).
  Lemma cands_In st fv u j : In j (cands st fv u) <-> candidate st fv u j.
  Proof.
    unfold cands, candidate, seen. destruct fv.
    - rewrite unseen_list_In. intuition.
    - rewrite zrange_In. split; [intros H; split; auto; discriminate|tauto].
  Qed.
  Lemma cands_NoDup st fv u : NoDup (cands st fv u).
  Proof. destruct fv; [unfold cands, unseen_list; apply NoDup_filter, zrange_NoDup|apply zrange_NoDup]. Qed.

  Lemma user_possible (st : rec_state A) fv want i u scores row :
    rs_scores st u = Ok scores -> length scores = rs_n_items st -> 0 <= u < Z.of_nat (rs_n_users st) ->
    nth_error want i = Some (wanted (cands st fv u) row) -> row <> [] ->
    is_top_k leb st fv u scores (length row) row -> last_is_lowest leb scores row ->
    recommend_user (chosen_argpart want) st fv true (length row) i u = Ok row.
  Proof.
    intros ES LS Hu W NE [_ [NR [HC HT]]] HL. unfold recommend_user. rewrite ES. cbn [bind].
    assert (HC' : incl row (cands st fv u)) by (intros j Hj; apply cands_In; auto).
    assert (SC : forall x, In x (cands st fv u) -> exists y, nth_error scores (Z.to_nat x) = Some y).
    { intros x Hx. apply cands_In in Hx as [R _]. destruct (nth_error scores (Z.to_nat x)) eqn:E; eauto. apply nth_error_None in E. lia. }
    assert (HT' : forall i j x y, In i row -> In j (cands st fv u) -> ~ In j row ->
       nth_error scores (Z.to_nat i) = Some x -> nth_error scores (Z.to_nat j) = Some y -> leb y x = true).
    { intros i0 j x y H1 H2. apply cands_In in H2. eauto. }
    destruct fv.
    - assert ((0 <=? u) && (u <? Z.of_nat (rs_n_users st)) = true) as -> by (apply andb_true_iff; rewrite Z.leb_le, Z.ltb_lt; lia).
      cbv zeta. destruct (want_core want i (select (map negb (viewed_mask (rs_history st) (rs_n_items st) u)) scores) (cands st true u) scores row) as [idx [E1 E2]]; auto.
      + now apply select_scores_length.
      + apply cands_NoDup.
      + intros j x. now apply cand_filtered.
      + rewrite E1. cbn [bind]. rewrite unseen_select. cbn [cands] in E2. rewrite E2. cbn [bind]. rewrite andb_false_r. reflexivity.
    - destruct (want_core want i scores (cands st false u) scores row) as [idx [E1 E2]]; auto.
      + unfold cands. now rewrite zrange_len.
      + apply cands_NoDup.
      + intros j x H. apply zrange_nth in H. subst. now rewrite Nat2Z.id.
      + rewrite E1. cbn [bind]. f_equal. unfold take_all in E2. apply mapM_Ok_iff in E2. clear - E2.
        induction E2 as [|n x l l' Hx F IH]; cbn [map]; auto. destruct (nth_error (cands st false u) n) eqn:E; [|discriminate].
        apply zrange_nth in E. inversion Hx; subst. f_equal; auto.
  Qed.

  Lemma translated_mapM (st : rec_state A) irow row : translated st irow row ->
    mapM (fun j => getitem (new2old (m_items (rs_mappings st))) j) irow = Ok row.
  Proof.
    induction 1 as [|j x irow row H F IH]; cbn [mapM]; auto. rewrite (proj2 (getitem_g_of _ _ _) H). cbn [bind]. now rewrite IH.
  Qed.

  Lemma loop_possible (st : rec_state A) fv internal k want : wf_state st -> (1 <= k)%nat ->
    (fv = true -> internal = false -> (2 <= rs_n_items st)%nat) ->
    forall us rows irows i, (forall u, In u us -> 0 <= u < Z.of_nat (rs_n_users st)) ->
    (forall n, nth_error want (i + n) = nth_error (map (fun p => wanted (cands st fv (fst p)) (snd p)) (combine us irows)) n) ->
    Forall2 (fun u irow => exists scores, rs_scores st u = Ok scores /\ is_top_k leb st fv u scores k irow /\ last_is_lowest leb scores irow) us irows ->
    Forall2 (fun irow row => if internal then row = irow else translated st irow row) irows rows ->
    recommend_loop (chosen_argpart want) st fv internal k i us = Ok rows.
  Proof.
    intros W K Two. induction us as [|u us IH]; intros rows irows i HU HW F G.
    - inversion F; subst. inversion G; subst. reflexivity.
    - inversion F as [|? irow ? irows' [scores [ES [T L]]] F']; subst. inversion G as [|? row ? rows' T' G']; subst. cbn [recommend_loop].
      assert (Hu : 0 <= u < Z.of_nat (rs_n_users st)) by (apply HU; left; auto).
      assert (LS : length scores = rs_n_items st).
      { destruct W as [_ [WS _]]. destruct (WS u Hu) as [s [E1 E2]]. congruence. }
      assert (Lk : length irow = k) by apply T.
      assert (E : recommend_user (chosen_argpart want) st fv true k i u = Ok irow).
      { subst k. eapply user_possible; eauto.
        - specialize (HW 0%nat). rewrite Nat.add_0_r in HW. rewrite HW. reflexivity.
        - intros ->. cbn in K. lia. }
      assert (E' : recommend_user (chosen_argpart want) st fv internal k i u = Ok row).
      { destruct internal; [congruence|]. rewrite user_external.
        - rewrite E. cbn [bind]. now apply translated_mapM.
        - destruct fv; [right; auto|left; auto]. }
      rewrite E'. cbn [bind]. rewrite (IH rows' irows' (S i)); auto.
      + intros v Hv. apply HU. right; auto.
      + intros n. specialize (HW (S n)). rewrite Nat.add_succ_r in HW. cbn [Nat.add]. rewrite HW. reflexivity.
  Qed.

  Lemma possible_iff (st : rec_state A) users k fv internal rows :
    wf_state st -> (1 <= k)%nat -> (1 <= rs_n_items st)%nat -> (fv = true -> internal = false -> (2 <= rs_n_items st)%nat) ->
    (exists argpart, argpartition_contract leb argpart /\ recommend argpart st users k fv internal = Ok rows) <->
    Forall2 (fun uid row => exists u, f_of (m_users (rs_mappings st)) uid = Some u
       /\ row_for leb st fv internal (Nat.min k (rs_n_items st)) u row) users rows.
  Proof.
    intros W K N Two. split.
    - intros [argpart [C R]].
      destruct (recommend_cases leb leb_trans argpart C st users k fv internal W N Two K) as [[? [_ [_ E]]]|[[_ [_ E]]|[_ [rows' [E F]]]]]; congruence.
    - intros F.
      assert (X : exists us irows, Forall2 (fun uid u => f_of (m_users (rs_mappings st)) uid = Some u) users us /\
        Forall2 (fun u irow => exists scores, rs_scores st u = Ok scores /\ is_top_k leb st fv u scores (Nat.min k (rs_n_items st)) irow /\ last_is_lowest leb scores irow) us irows /\
        Forall2 (fun irow row => if internal then row = irow else translated st irow row) irows rows).
      { clear - F. induction F as [|uid row users rows [u [Hu [s [ir [H1 [H2 [H3 H4]]]]]]] F [us [irs [I1 [I2 I3]]]]].
        - exists [], []. auto.
        - exists (u :: us), (ir :: irs). split; [constructor; auto|]. split; constructor; eauto. }
      destruct X as [us [irows [F1 [F2 F3]]]].
      set (want := map (fun p => wanted (cands st fv (fst p)) (snd p)) (combine us irows)).
      exists (chosen_argpart want). split; [apply chosen_contract|].
      unfold recommend.
      assert (EU : mapM (fun uid => getitem (old2new (m_users (rs_mappings st))) uid) users = Ok us).
      { apply mapM_Ok_iff. eapply Forall2_impl; [|exact F1]. intros a b H. now apply getitem_f_of. }
      rewrite EU. cbn [bind]. rewrite (wf_history_fits st W), andb_false_r.
      apply (loop_possible st fv internal (Nat.min k (rs_n_items st)) want W) with (irows := irows); auto; [lia|].
      intros u Hu. destruct (Forall2_In_r _ _ _ _ F1 Hu) as [uid [_ H]]. destruct W as [_ [_ [WU _]]]. eapply WU; eauto.
  Qed.
End Possible.
