(** Lemmas about histories, deltas, cropping and the training tensor. *)
From Coq Require Import ZArith List Bool Lia Permutation Sorted.
From Verif Require Import Prelude Prelude_proofs DataPrep_model DataPrep_spec DataPrep_proofs DataPrep_main.
From Verif Require Import History_model History_spec.
Import ListNotations.
Open Scope Z_scope.

(** * Sequential history *)

Definition start_deque (L : nat) (o : option deque) : deque :=
  match o with Some d => d | None => mkDeque L (repeat PAD_VALUE L) end.

Lemma dget_push L h t u :
  dget u (push_interaction L h t) =
  if u =? t_user t then Some (dq_append (start_deque L (dget u h)) (t_item t)) else dget u h.
Proof.
  unfold push_interaction, dmem.
  destruct (Z.eqb_spec u (t_user t)) as [->|N].
  - destruct (dget (t_user t) h) eqn:E.
    + rewrite E. simpl. rewrite dget_dset_eq. reflexivity.
    + rewrite dget_dset_eq. rewrite dget_dset_eq. reflexivity.
  - destruct (dget (t_user t) h) eqn:E.
    + rewrite E, dget_dset_ne; auto.
    + rewrite dget_dset_eq, !dget_dset_ne; auto.
Qed.

Lemma NoDup_push L h t : NoDup (dkeys h) -> NoDup (dkeys (push_interaction L h t)).
Proof.
  intros H. unfold push_interaction, dmem.
  destruct (dget (t_user t) h) eqn:E.
  - rewrite E. apply NoDup_dkeys_dset; auto.
  - rewrite dget_dset_eq. repeat apply NoDup_dkeys_dset; auto.
Qed.

Lemma NoDup_update new : forall h L,
  NoDup (dkeys h) -> NoDup (dkeys (update_user_seq_history new h L)).
Proof.
  induction new as [|t new IH]; intros h L H; simpl; auto.
  apply IH, NoDup_push; auto.
Qed.

Lemma fold_dq_append is : forall d,
  (length (dq_items d) <= dq_maxlen d)%nat ->
  fold_left dq_append is d = mkDeque (dq_maxlen d) (lastn (dq_maxlen d) (dq_items d ++ is)).
Proof.
  induction is as [|x is IH]; intros d H; simpl.
  - rewrite app_nil_r, lastn_all; auto. destruct d; auto.
  - rewrite IH.
    + simpl. f_equal.
      set (n := dq_maxlen d).
      replace (dq_items d ++ x :: is) with ((dq_items d ++ [x]) ++ is)
        by (rewrite <- app_assoc; reflexivity).
      generalize (dq_items d ++ [x]) as l. intros l.
      unfold lastn. rewrite !app_length, skipn_length.
      destruct (le_lt_dec (length l) n) as [Hl|Hl].
      * replace (length l - n)%nat with 0%nat by lia. simpl.
        rewrite Nat.sub_0_r. reflexivity.
      * rewrite !skipn_app, skipn_skipn, skipn_length.
        replace (length l - (length l - n))%nat with n by lia.
        replace (n + length is - n)%nat with (length is) by lia.
        replace (length is + (length l - n))%nat with (length l + length is - n)%nat by lia.
        f_equal. f_equal. lia.
    + simpl. rewrite lastn_length. lia.
Qed.

Definition wf_hist (h : seq_history) : Prop :=
  NoDup (dkeys h)
  /\ forall u d, dget u h = Some d -> length (dq_items d) = dq_maxlen d.

Lemma dget_update_fold new : forall h L u,
  dget u (update_user_seq_history new h L) =
  match dget u h, items_of u new with
  | None, [] => None
  | o, is => Some (fold_left dq_append is (start_deque L o))
  end.
Proof.
  unfold update_user_seq_history.
  induction new as [|t new IH]; intros h L u; cbn [fold_left].
  - unfold items_of; simpl. destruct (dget u h); auto.
  - rewrite IH, dget_push. unfold items_of; simpl.
    rewrite (Z.eqb_sym u).
    destruct (Z.eqb_spec (t_user t) u) as [E|N]; simpl; auto.
    destruct (dget u h); simpl; auto.
Qed.

Lemma dget_update new h L u :
  wf_hist h ->
  dget u (update_user_seq_history new h L) =
  match dget u h, items_of u new with
  | None, [] => None
  | o, is => let d := start_deque L o in
             Some (mkDeque (dq_maxlen d) (lastn (dq_maxlen d) (dq_items d ++ is)))
  end.
Proof.
  intros [_ W]. rewrite dget_update_fold.
  destruct (dget u h) as [d|] eqn:E.
  - cbn [start_deque]. rewrite fold_dq_append; auto. rewrite (W _ _ E). lia.
  - destruct (items_of u new) as [|i is]; auto.
    unfold start_deque. rewrite fold_dq_append; auto.
    simpl. rewrite repeat_length. lia.
Qed.

Lemma wf_update new h L : wf_hist h -> wf_hist (update_user_seq_history new h L).
Proof.
  intros W. split; [apply NoDup_update, W|].
  intros u d. rewrite dget_update; auto.
  destruct W as [_ W].
  destruct (dget u h) as [d0|] eqn:E.
  - intros H; inversion H; subst; simpl. rewrite lastn_length, app_length, (W _ _ E). lia.
  - destruct (items_of u new) as [|i is]; [discriminate|].
    intros H; inversion H; subst; simpl. rewrite lastn_length, app_length, repeat_length. lia.
Qed.

Lemma wf_nil : wf_hist [].
Proof. split; [constructor|]. intros u d H; discriminate. Qed.

Lemma update_app a b h L :
  update_user_seq_history (a ++ b) h L =
  update_user_seq_history b (update_user_seq_history a h L) L.
Proof. unfold update_user_seq_history. apply fold_left_app. Qed.

Lemma update_batches batches : forall h L,
  fold_left (fun h b => update_user_seq_history b h L) batches h
  = update_user_seq_history (concat batches) h L.
Proof.
  induction batches as [|b bs IH]; intros h L; simpl; auto.
  rewrite IH, update_app. reflexivity.
Qed.

(** * Delta tensors *)

Lemma cell_app c a b : cell c (a ++ b) = cell c a + cell c b.
Proof. induction a as [|[c' v] a IH]; simpl; auto. rewrite IH. lia. Qed.

Lemma cell_zero_user c es :
  (forall e, In e es -> t_user (fst e) <> t_user c) -> cell c es = 0.
Proof.
  induction es as [|[c' v] es IH]; intros H; simpl; auto.
  rewrite IH by (intros; apply H; right; auto).
  destruct (Z.eqb_spec (t_user c) (t_user c')) as [E|]; simpl; auto.
  exfalso. apply (H (c', v)); simpl; auto.
Qed.

Definition user_delta (h_old : dict (list Z)) (uh : Z * list Z) : list entry :=
  match dget (fst uh) h_old with
  | None => delta_new_user (fst uh) (snd uh)
  | Some uh_old => delta_old_user (fst uh) (snd uh) uh_old
  end.

Lemma user_delta_user h_old uh e : In e (user_delta h_old uh) -> t_user (fst e) = fst uh.
Proof.
  unfold user_delta, delta_new_user, delta_old_user.
  destruct (dget (fst uh) h_old); intros H; apply in_flat_map in H as [p [_ Hp]].
  - destruct (negb _); [|destruct Hp].
    apply in_app_or in Hp as [Hp|Hp].
    + destruct (negb (fst (snd p) =? PAD_VALUE)); [|destruct Hp].
      destruct Hp as [<-|[]]; reflexivity.
    + destruct (negb (snd (snd p) =? PAD_VALUE)); [|destruct Hp].
      destruct Hp as [<-|[]]; reflexivity.
  - destruct (negb _); [|destruct Hp]. destruct Hp as [<-|[]]; reflexivity.
Qed.

Lemma cell_flat_users c h_old : forall h_new, NoDup (dkeys h_new) ->
  cell c (flat_map (user_delta h_old) h_new) =
  match dget (t_user c) h_new with
  | Some l => cell c (user_delta h_old (t_user c, l))
  | None => 0
  end.
Proof.
  induction h_new as [|[u l] h IH]; intros ND; simpl; auto.
  inversion ND as [|? ? Hn ND']; subst. rewrite cell_app, IH; auto.
  destruct (Z.eqb_spec (t_user c) u) as [->|N].
  - assert (dget u h = None) as -> by (apply dget_None_notin; auto). lia.
  - rewrite (cell_zero_user c (user_delta h_old (u, l))); auto.
    intros e He. apply user_delta_user in He. simpl in He. congruence.
Qed.

(** Indicator of item [i] at position [p] of a list starting at position [s]. *)
Definition at_pos (s p i : Z) (l : list Z) : Z :=
  if p <? s then 0 else
  match nth_error l (Z.to_nat (p - s)) with
  | Some j => if (j =? i) && negb (j =? PAD_VALUE) then 1 else 0
  | None => 0
  end.

Lemma at_pos_cons s p i j l :
  at_pos s p i (j :: l) =
  (if (p =? s) && (j =? i) && negb (j =? PAD_VALUE) then 1 else 0) + at_pos (s + 1) p i l.
Proof.
  unfold at_pos.
  destruct (Z.ltb_spec p s).
  - assert ((p =? s) = false) as -> by (apply Z.eqb_neq; lia).
    assert ((p <? s + 1) = true) as -> by (apply Z.ltb_lt; lia). reflexivity.
  - destruct (Z.eqb_spec p s) as [->|N].
    + rewrite Z.sub_diag. simpl.
      assert ((s <? s + 1) = true) as -> by (apply Z.ltb_lt; lia).
      destruct ((j =? i) && _); lia.
    + assert ((p <? s + 1) = false) as -> by (apply Z.ltb_ge; lia).
      replace (Z.to_nat (p - s)) with (S (Z.to_nat (p - (s + 1)))) by lia.
      reflexivity.
Qed.

Lemma cell_new_user u i p : forall l s,
  cell (u, i, p)
    (flat_map (fun pi => if negb (snd pi =? PAD_VALUE) then [((u, snd pi, fst pi), 1)] else [])
       (enumerate s l)) = at_pos s p i l.
Proof.
  induction l as [|j l IH]; intros s; simpl.
  - unfold at_pos. destruct (p <? s), (Z.to_nat (p - s)); auto.
  - rewrite cell_app, IH, at_pos_cons. f_equal.
    destruct (j =? PAD_VALUE) eqn:EJ; simpl.
    + rewrite andb_false_r. reflexivity.
    + unfold t_user, t_item, t_pos; simpl. rewrite Z.eqb_refl, andb_true_r. simpl.
      rewrite (Z.eqb_sym i j). destruct (p =? s), (j =? i); reflexivity.
Qed.

Lemma cell_old_user u i p : forall l l' s, length l = length l' ->
  cell (u, i, p)
    (flat_map (fun p =>
      let pos := fst p in let new := fst (snd p) in let old := snd (snd p) in
      if negb (new =? old) then
        (if negb (new =? PAD_VALUE) then [((u, new, pos), 1)] else [])
        ++ (if negb (old =? PAD_VALUE) then [((u, old, pos), -1)] else [])
      else []) (enumerate s (combine l l'))) = at_pos s p i l - at_pos s p i l'.
Proof.
  induction l as [|j l IH]; intros [|j' l'] s HL; simpl in HL; try discriminate.
  - simpl. lia.
  - cbn [combine enumerate flat_map]. rewrite cell_app, IH by lia.
    rewrite !at_pos_cons. cbn [fst snd].
    generalize (at_pos (s + 1) p i l), (at_pos (s + 1) p i l'). intros X Y.
    destruct (Z.eqb_spec j j') as [->|N]; cbn [negb cell].
    + lia.
    + destruct (Z.eqb_spec j PAD_VALUE), (Z.eqb_spec j' PAD_VALUE);
        cbn [negb app cell t_user t_item t_pos fst snd];
        rewrite ?Z.eqb_refl, ?andb_false_r, ?andb_true_r; cbn [andb];
        rewrite ?(Z.eqb_sym i j), ?(Z.eqb_sym i j');
        destruct (p =? s), (Z.eqb_spec j i), (Z.eqb_spec j' i); cbn [andb]; lia.
Qed.

Lemma hist_cell_at_pos c h :
  hist_cell c h = match dget (t_user c) h with
                  | Some l => at_pos 0 (t_pos c) (t_item c) l
                  | None => 0
                  end.
Proof.
  unfold hist_cell, at_pos. destruct (dget (t_user c) h); auto.
  destruct (t_pos c <? 0); auto. rewrite Z.sub_0_r. reflexivity.
Qed.

Lemma calculate_delta_cell h_new h_old c :
  NoDup (dkeys h_new) ->
  (forall u l, dget u h_old = Some l -> exists l', dget u h_new = Some l' /\ length l' = length l) ->
  cell c (calculate_delta h_new h_old) = hist_cell c h_new - hist_cell c h_old.
Proof.
  intros ND Hlen. unfold calculate_delta.
  change (fun uh : Z * list Z => match dget (fst uh) h_old with
     | Some uh_old => delta_old_user (fst uh) (snd uh) uh_old
     | None => delta_new_user (fst uh) (snd uh) end) with (user_delta h_old).
  rewrite cell_flat_users by auto.
  rewrite !hist_cell_at_pos. unfold user_delta. simpl.
  destruct c as [[u i] p]. unfold t_user, t_item, t_pos in *; simpl in *.
  destruct (dget u h_old) as [lo|] eqn:EO.
  - destruct (Hlen _ _ EO) as [l' [-> HL]].
    unfold delta_old_user. rewrite cell_old_user; auto.
  - destruct (dget u h_new) as [l|]; [|lia].
    unfold delta_new_user. rewrite cell_new_user. lia.
Qed.

Lemma NoDup_flat_map {A B K} (f : A -> list B) (ka : A -> K) (kb : B -> K) l :
  NoDup (map ka l) ->
  (forall x y, In x l -> In y (f x) -> kb y = ka x) ->
  (forall x, In x l -> NoDup (f x)) ->
  NoDup (flat_map f l).
Proof.
  induction l as [|x l IH]; intros ND HK HN; simpl; [constructor|].
  inversion ND as [|? ? Hx ND']; subst.
  apply NoDup_app_intro.
  - apply HN; left; auto.
  - apply IH; auto; intros; [apply HK|apply HN]; auto; right; auto.
  - intros y Hy Hy'. apply in_flat_map in Hy' as [x' [Hx' Hy']].
    apply Hx. rewrite <- (HK x y), (HK x' y); auto; try (left; auto; fail); try (right; auto; fail).
    apply in_map; auto.
Qed.

Lemma map_flat_map {A B C} (g : B -> C) (f : A -> list B) l :
  map g (flat_map f l) = flat_map (fun x => map g (f x)) l.
Proof. induction l; simpl; auto. rewrite map_app, IHl. reflexivity. Qed.

Lemma NoDup_enumerate_fst {A} (l : list A) s : NoDup (map fst (enumerate s l)).
Proof.
  rewrite enumerate_fst. apply FinFun.Injective_map_NoDup; [|apply seq_NoDup].
  intros a b H. lia.
Qed.

Lemma user_delta_NoDup h_old uh : NoDup (map fst (user_delta h_old uh)).
Proof.
  unfold user_delta, delta_new_user, delta_old_user.
  destruct (dget (fst uh) h_old); rewrite map_flat_map.
  - apply (NoDup_flat_map _ fst t_pos).
    + apply NoDup_enumerate_fst.
    + intros x y _ Hy. destruct (negb _); [|destruct Hy].
      rewrite map_app in Hy. apply in_app_or in Hy as [Hy|Hy].
      * destruct (negb (fst (snd x) =? PAD_VALUE)); [|destruct Hy].
        destruct Hy as [<-|[]]; reflexivity.
      * destruct (negb (snd (snd x) =? PAD_VALUE)); [|destruct Hy].
        destruct Hy as [<-|[]]; reflexivity.
    + intros x _. destruct (Z.eqb_spec (fst (snd x)) (snd (snd x))) as [|N]; simpl; [constructor|].
      destruct (fst (snd x) =? PAD_VALUE), (snd (snd x) =? PAD_VALUE); simpl;
        repeat constructor; simpl; try tauto.
      intros [H|[]]. inversion H. congruence.
  - apply (NoDup_flat_map _ fst t_pos).
    + apply NoDup_enumerate_fst.
    + intros x y _ Hy. destruct (negb _); [|destruct Hy].
      destruct Hy as [<-|[]]; reflexivity.
    + intros x _. destruct (negb _); simpl; repeat constructor; simpl; tauto.
Qed.

Lemma calculate_delta_NoDup h_new h_old :
  NoDup (dkeys h_new) -> NoDup (map fst (calculate_delta h_new h_old)).
Proof.
  intros ND. unfold calculate_delta. rewrite map_flat_map.
  apply (NoDup_flat_map _ fst t_user); auto.
  - intros x y _ Hy. apply in_map_iff in Hy as [e [<- He]].
    apply user_delta_user in He. auto.
  - intros x _. apply user_delta_NoDup.
Qed.

Lemma calculate_delta_vals h_new h_old c v :
  In (c, v) (calculate_delta h_new h_old) -> (v = 1 \/ v = -1) /\ t_item c <> PAD_VALUE.
Proof.
  intros H. unfold calculate_delta in H. apply in_flat_map in H as [uh [_ H]].
  unfold delta_new_user, delta_old_user in H.
  destruct (dget (fst uh) h_old); apply in_flat_map in H as [p [_ H]].
  - destruct (negb _); [|destruct H]. apply in_app_or in H as [H|H].
    + destruct (Z.eqb_spec (fst (snd p)) PAD_VALUE); simpl in H; [destruct H|].
      destruct H as [H|[]]; inversion H; subst; auto.
    + destruct (Z.eqb_spec (snd (snd p)) PAD_VALUE); simpl in H; [destruct H|].
      destruct H as [H|[]]; inversion H; subst; auto.
  - destruct (Z.eqb_spec (snd p) PAD_VALUE); simpl in H; [destruct H|].
    destruct H as [H|[]]; inversion H; subst; auto.
Qed.

Lemma dget_hist_lists u h : dget u (hist_lists h) = option_map dq_items (dget u h).
Proof. induction h as [|[k d] h IH]; simpl; auto. destruct (u =? k); auto. Qed.

Lemma dkeys_hist_lists h : dkeys (hist_lists h) = dkeys h.
Proof. unfold dkeys, hist_lists. rewrite map_map. reflexivity. Qed.

Lemma get_train_tensor_cell L h chunk c :
  wf_hist h ->
  cell c (snd (get_train_tensor L h chunk))
  = hist_cell c (hist_lists (fst (get_train_tensor L h chunk))) - hist_cell c (hist_lists h).
Proof.
  intros W. simpl. apply calculate_delta_cell.
  - rewrite dkeys_hist_lists. apply NoDup_update, W.
  - intros u l. rewrite !dget_hist_lists, dget_update; auto.
    destruct (dget u h) as [d|] eqn:E; simpl; [|discriminate].
    intros H; inversion H; subst. eexists; split; [reflexivity|].
    destruct W as [_ W]. rewrite lastn_length, app_length, (W _ _ E). lia.
Qed.

Lemma stream_deltas_wf L chunks : forall h, wf_hist h -> wf_hist (fst (stream_deltas L h chunks)).
Proof.
  induction chunks as [|ch r IH]; intros h W; simpl; auto.
  specialize (IH _ (wf_update ch h L W)).
  destruct (stream_deltas L (update_user_seq_history ch h L) r); auto.
Qed.

Lemma stream_deltas_cell L c chunks : forall h, wf_hist h ->
  cell c (snd (stream_deltas L h chunks))
  = hist_cell c (hist_lists (fst (stream_deltas L h chunks))) - hist_cell c (hist_lists h).
Proof.
  induction chunks as [|ch r IH]; intros h W; [simpl; lia|].
  pose proof (get_train_tensor_cell L h ch c W) as H1.
  cbn [stream_deltas]. destruct (get_train_tensor L h ch) as [h1 d] eqn:E.
  assert (W1 : wf_hist h1).
  { unfold get_train_tensor in E. inversion E; subst. apply wf_update; auto. }
  specialize (IH h1 W1). destruct (stream_deltas L h1 r) as [h2 ds].
  simpl in *. rewrite cell_app. lia.
Qed.

(** * Filtering and stable sorting *)

Section FilterSort.
  Context {A : Type} (leb : A -> A -> bool).
  Hypothesis leb_total : forall x y, leb x y = true \/ leb y x = true.
  Hypothesis leb_trans : forall x y z, leb x y = true -> leb y z = true -> leb x z = true.

  Lemma filter_insert (p : A -> bool) x l :
    StronglySorted (fun a b => leb a b = true) l ->
    filter p (insert_sorted leb x l)
    = if p x then insert_sorted leb x (filter p l) else filter p l.
  Proof.
    induction 1 as [|y l Hl IH Hy]; simpl; [destruct (p x); auto|].
    destruct (leb x y) eqn:E; simpl.
    - destruct (p x); auto.
      destruct (p y) eqn:PY; simpl; [rewrite E; auto|].
      assert (Hx : Forall (fun b => leb x b = true) (filter p l)).
      { apply Forall_forall. intros b Hb. apply filter_In in Hb as [Hb _].
        rewrite Forall_forall in Hy. eapply leb_trans; eauto. }
      destruct (filter p l) as [|b l']; auto. simpl.
      inversion Hx; subst. rewrite H1. reflexivity.
    - rewrite IH. destruct (p x), (p y); simpl; rewrite ?E; auto.
  Qed.

  Lemma filter_sort (p : A -> bool) l :
    filter p (sort_stable leb l) = sort_stable leb (filter p l).
  Proof.
    induction l as [|x l IH]; simpl; auto.
    rewrite filter_insert by (apply sort_stable_sorted; auto).
    rewrite IH. destruct (p x); auto.
  Qed.
End FilterSort.

Lemma sort_stable_ext {A} (leb leb' : A -> A -> bool) l :
  (forall x y, In x l -> In y l -> leb x y = leb' x y) ->
  sort_stable leb l = sort_stable leb' l.
Proof.
  induction l as [|x l IH]; intros H; simpl; auto.
  rewrite IH by (intros; apply H; right; auto).
  assert (HI : forall m, (forall y, In y m -> In y l) ->
    insert_sorted leb x m = insert_sorted leb' x m).
  { induction m as [|y m IHm]; intros Hm; simpl; auto.
    rewrite (H x y) by (simpl; auto using in_eq).
    rewrite IHm by (intros; apply Hm; right; auto). reflexivity. }
  apply HI. intros y Hy. eapply Permutation_in; [|exact Hy].
  symmetry. apply sort_stable_perm.
Qed.

Definition ts_leb (a b : row) : bool := r_ts a <=? r_ts b.

Lemma user_ts_total x y : user_ts_leb x y = true \/ user_ts_leb y x = true.
Proof.
  unfold user_ts_leb. rewrite !orb_true_iff, !andb_true_iff, !Z.ltb_lt, !Z.eqb_eq, !Z.leb_le. lia.
Qed.
Lemma user_ts_trans x y z :
  user_ts_leb x y = true -> user_ts_leb y z = true -> user_ts_leb x z = true.
Proof.
  unfold user_ts_leb. rewrite !orb_true_iff, !andb_true_iff, !Z.ltb_lt, !Z.eqb_eq, !Z.leb_le. lia.
Qed.
Lemma user_pos_total x y : user_pos_leb x y = true \/ user_pos_leb y x = true.
Proof.
  unfold user_pos_leb. rewrite !orb_true_iff, !andb_true_iff, !Z.ltb_lt, !Z.eqb_eq, !Z.leb_le. lia.
Qed.
Lemma user_pos_trans x y z :
  user_pos_leb x y = true -> user_pos_leb y z = true -> user_pos_leb x z = true.
Proof.
  unfold user_pos_leb. rewrite !orb_true_iff, !andb_true_iff, !Z.ltb_lt, !Z.eqb_eq, !Z.leb_le. lia.
Qed.

Lemma sort_rows_of u df :
  rows_of u (sort_stable user_ts_leb df) = sort_stable ts_leb (rows_of u df).
Proof.
  unfold rows_of. rewrite (filter_sort _ user_ts_total user_ts_trans).
  apply sort_stable_ext. intros x y Hx Hy.
  apply filter_In in Hx as [_ Hx], Hy as [_ Hy]. apply Z.eqb_eq in Hx, Hy.
  unfold user_ts_leb, ts_leb. rewrite Hx, Hy, Z.ltb_irrefl, Z.eqb_refl. reflexivity.
Qed.

Lemma sort_StableSorted (key : row -> Z) l :
  StableSorted key l (sort_stable (fun a b => key a <=? key b) l).
Proof.
  assert (Ht : forall x y, (key x <=? key y) = true \/ (key y <=? key x) = true)
    by (intros; apply Zleb_total).
  assert (Htr : forall x y z, (key x <=? key y) = true -> (key y <=? key z) = true -> (key x <=? key z) = true)
    by (intros x y z; apply Zleb_trans).
  split; [|split].
  - pose proof (sort_stable_sorted (fun a b => key a <=? key b) Ht Htr l) as H.
    revert H. generalize (sort_stable (fun a b => key a <=? key b) l) as l'.
    induction 1 as [|a l' Hl' IH Ha]; constructor; auto.
    eapply Forall_impl; [|exact Ha]. simpl. intros b Hb. apply Z.leb_le; auto.
  - apply sort_stable_perm.
  - intros k. rewrite (filter_sort (fun a b => key a <=? key b) Ht Htr).
    apply sort_stable_id.
    assert (HF : Forall (fun a => key a = k) (filter (fun a => key a =? k) l)).
    { apply Forall_forall. intros a Ha. apply filter_In in Ha as [_ Ha]. apply Z.eqb_eq; auto. }
    revert HF. generalize (filter (fun a => key a =? k) l) as m.
    induction m as [|a m IH]; intros HF; constructor.
    + apply IH. inversion HF; auto.
    + inversion HF; subst. eapply Forall_impl; [|exact H2].
      simpl. intros b Hb. apply Z.leb_le. lia.
Qed.

(** * Cropping *)

Lemma zrange_length n : length (zrange n) = n.
Proof. unfold zrange. rewrite map_length, seq_length. reflexivity. Qed.

Lemma zrange_nonneg n x : In x (zrange n) -> 0 <= x < Z.of_nat n.
Proof.
  unfold zrange. intros H. apply in_map_iff in H as [k [<- Hk]]. apply in_seq in Hk. lia.
Qed.

Definition nonpad (p : prow) : bool := negb (p_pos p =? PAD_VALUE).

Lemma filter_none {A} (f : A -> bool) l : (forall x, In x l -> f x = false) -> filter f l = [].
Proof.
  induction l as [|x l IH]; intros H; simpl; auto.
  rewrite (H x) by (left; auto). apply IH. intros; apply H; right; auto.
Qed.

Lemma filter_nonpad_combine (x : list row) ps :
  (forall p, In p ps -> 0 <= p) -> filter nonpad (combine x ps) = combine x ps.
Proof.
  intros H. apply filter_all. intros [r p] Hin. apply in_combine_r in Hin.
  apply H in Hin. unfold nonpad, p_pos; simpl. apply negb_true_iff, Z.eqb_neq.
  unfold PAD_VALUE. lia.
Qed.

Lemma combine_app {A B} (a1 a2 : list A) (b1 b2 : list B) :
  length a1 = length b1 -> combine (a1 ++ a2) (b1 ++ b2) = combine a1 b1 ++ combine a2 b2.
Proof.
  revert b1. induction a1 as [|x a1 IH]; intros [|y b1] H; simpl in *; try discriminate; auto.
  f_equal. apply IH. lia.
Qed.

Lemma add_order_ok x L : (1 <= L)%nat ->
  exists g, add_order_cropped x L = Ok g
    /\ filter nonpad g = combine (lastn L x) (zrange (Nat.min (length x) L))
    /\ map p_row g = x.
Proof.
  intros HL. unfold add_order_cropped.
  destruct (Nat.leb_spec (length x) L) as [H|H].
  - eexists; split; [reflexivity|]. split.
    + rewrite filter_nonpad_combine by (intros p Hp; apply zrange_nonneg in Hp; lia).
      rewrite lastn_all by auto. rewrite Nat.min_l by auto. reflexivity.
    + assert (G : forall (a : list row) (b : list Z), length a = length b -> map p_row (combine a b) = a).
      { induction a as [|r a IH]; intros [|b0 b] Hab; simpl in *; try discriminate; auto.
        f_equal; auto. }
      apply G. rewrite zrange_length; auto.
  - destruct L as [|L']; [lia|]. set (L := S L') in *.
    eexists; split; [reflexivity|].
    assert (G : forall (a : list row) (b : list Z), length a = length b -> map p_row (combine a b) = a).
    { induction a as [|r a IH]; intros [|b0 b] Hab; simpl in *; try discriminate; auto.
      f_equal; auto. }
    split.
    + destruct (lastn_suffix L x) as [pre Hpre].
      assert (Hlen : length pre = (length x - L)%nat).
      { pose proof (f_equal (@length row) Hpre) as HH. rewrite app_length, lastn_length in HH. lia. }
      rewrite Hpre at 1. rewrite combine_app by (rewrite repeat_length; auto).
      rewrite filter_app, filter_none, filter_nonpad_combine.
      * rewrite Nat.min_r by lia. reflexivity.
      * intros p Hp; apply zrange_nonneg in Hp; lia.
      * intros [r p] Hin. apply in_combine_r, repeat_spec in Hin. subst p. reflexivity.
    + apply G. rewrite app_length, repeat_length, zrange_length. lia.
Qed.

Lemma mapM_exists {A B} (f : A -> res B) (P : A -> B -> Prop) l :
  (forall x, In x l -> exists y, f x = Ok y /\ P x y) ->
  exists ys, mapM f l = Ok ys /\ Forall2 P l ys.
Proof.
  induction l as [|x l IH]; intros H; simpl; [exists []; split; auto|].
  destruct (H x (or_introl eq_refl)) as [y [-> Py]].
  destruct IH as [ys [-> PF]]; [intros; apply H; right; auto|].
  simpl. exists (y :: ys); split; auto.
Qed.

Lemma crop_groups df L :
  (1 <= L)%nat -> df <> [] ->
  exists groups,
    mapM (fun u => add_order_cropped (rows_of u df) L) (np_unique (map r_user df)) = Ok groups
    /\ Forall2 (fun u g => filter nonpad g = combine (lastn L (rows_of u df)) (zrange (Nat.min (length (rows_of u df)) L))
                           /\ map p_row g = rows_of u df) (np_unique (map r_user df)) groups.
Proof.
  intros HL Hne. apply mapM_exists. intros u _. apply add_order_ok; auto.
Qed.

Lemma filter_concat_groups u us groups df L :
  NoDup us ->
  Forall2 (fun u g => filter nonpad g = combine (lastn L (rows_of u df)) (zrange (Nat.min (length (rows_of u df)) L))
                      /\ map p_row g = rows_of u df) us groups ->
  filter (fun p => r_user (p_row p) =? u) (filter nonpad (concat groups))
  = if memZ u us then combine (lastn L (rows_of u df)) (zrange (Nat.min (length (rows_of u df)) L)) else [].
Proof.
  intros ND F. induction F as [|v g us groups [H1 H2] F IH]; auto.
  inversion ND; subst. cbn [concat]. rewrite !filter_app, IH; auto.
  assert (Hg : forall p, In p g -> r_user (p_row p) = v).
  { intros p Hp. assert (In (p_row p) (rows_of v df)) by (rewrite <- H2; apply in_map; auto).
    apply filter_In in H as [_ H]. apply Z.eqb_eq; auto. }
  simpl. destruct (Z.eqb_spec u v) as [->|N]; simpl.
  - assert (memZ v us = false) as -> by (apply memZ_false; auto).
    rewrite app_nil_r, filter_all; auto.
    intros p Hp. apply filter_In in Hp as [Hp _]. apply Z.eqb_eq, Hg; auto.
  - rewrite filter_none; auto.
    intros p Hp. apply filter_In in Hp as [Hp _]. apply Z.eqb_neq. rewrite Hg; auto.
Qed.

Lemma concat_groups_sorted us groups df :
  StronglySorted Z.le us ->
  Forall2 (fun u g => map p_row g = rows_of u df) us groups ->
  StronglySorted Z.le (map (fun p => r_user (p_row p)) (filter nonpad (concat groups))).
Proof.
  intros SS F. induction F as [|v g us groups H2 F IH]; simpl; [constructor|].
  inversion SS as [|? ? SS' Hv]; subst.
  assert (Hg : forall p, In p g -> r_user (p_row p) = v).
  { intros p Hp. assert (In (p_row p) (rows_of v df)) by (rewrite <- H2; apply in_map; auto).
    apply filter_In in H as [_ H]. apply Z.eqb_eq; auto. }
  assert (Hgs : forall p, In p (concat groups) -> v <= r_user (p_row p)).
  { intros p Hp. clear IH SS SS' H2 Hg. induction F as [|v' g' us' gs' H2' F' IH]; [destruct Hp|].
    inversion Hv; subst. simpl in Hp. apply in_app_or in Hp as [Hp|Hp].
    - assert (In (p_row p) (rows_of v' df)) by (rewrite <- H2'; apply in_map; auto).
      apply filter_In in H as [_ H]. apply Z.eqb_eq in H. lia.
    - apply IH; auto. }
  rewrite filter_app, map_app.
  specialize (IH SS').
  assert (G : forall g0, (forall p, In p g0 -> r_user (p_row p) = v) ->
    StronglySorted Z.le (map (fun p => r_user (p_row p)) (filter nonpad g0) ++
                         map (fun p => r_user (p_row p)) (filter nonpad (concat groups)))).
  { induction g0 as [|p g0 IHg]; intros Hg0; simpl; auto.
    destruct (nonpad p); [|apply IHg; intros; apply Hg0; right; auto].
    simpl. constructor; [apply IHg; intros; apply Hg0; right; auto|].
    apply Forall_forall. intros x Hx. rewrite (Hg0 p) by (left; auto).
    apply in_app_or in Hx as [Hx|Hx]; apply in_map_iff in Hx as [q [<- Hq]];
      apply filter_In in Hq as [Hq _].
    - rewrite (Hg0 q) by (right; auto). lia.
    - apply Hgs; auto. }
  apply G; auto.
Qed.

Lemma np_unique_sorted_le l : StronglySorted Z.le (np_unique l).
Proof.
  pose proof (np_unique_sorted l) as H. revert H. generalize (np_unique l).
  induction 1 as [|a m Hm IH Ha]; constructor; auto.
  eapply Forall_impl; [|exact Ha]. simpl. intros b. apply Z.leb_le.
Qed.

Lemma rows_of_nil u df : ~ In u (map r_user df) -> rows_of u df = [].
Proof.
  intros H. apply filter_none. intros r Hr. apply Z.eqb_neq. intros E. apply H. rewrite <- E.
  apply in_map; auto.
Qed.

Lemma crop_core df L :
  (1 <= L)%nat -> df <> [] ->
  exists out,
    (do groups <- mapM (fun u => add_order_cropped (rows_of u df) L) (np_unique (map r_user df));
     Ok (filter nonpad (concat groups))) = Ok out
    /\ StronglySorted Z.le (map (fun p => r_user (p_row p)) out)
    /\ forall u, filter (fun p => r_user (p_row p) =? u) out
                 = combine (lastn L (rows_of u df)) (zrange (Nat.min (length (rows_of u df)) L)).
Proof.
  intros HL Hne. destruct (crop_groups df L HL Hne) as [groups [E F]].
  rewrite E. cbn [bind]. eexists; split; [reflexivity|]. split.
  - apply concat_groups_sorted with (us := np_unique (map r_user df)) (df := df).
    + apply np_unique_sorted_le.
    + eapply Forall2_impl; [|exact F]. simpl. tauto.
  - intros u. rewrite (filter_concat_groups _ _ _ _ _ (np_unique_NoDup _) F).
    destruct (memZ u _) eqn:M; auto.
    apply memZ_false in M. rewrite np_unique_In in M. rewrite rows_of_nil by auto. reflexivity.
Qed.

Lemma crop_main df L (sort_bool : bool) :
  (1 <= L)%nat -> df <> [] ->
  exists out,
    get_df_with_cropped_pos_column df L sort_bool = Ok out
    /\ StronglySorted Z.le (map (fun p => r_user (p_row p)) out)
    /\ forall u, exists x,
        (if sort_bool then StableSorted r_ts (rows_of u df) x else x = rows_of u df)
        /\ filter (fun p => r_user (p_row p) =? u) out
           = combine (lastn L x) (zrange (Nat.min (length x) L)).
Proof.
  intros HL Hne. unfold get_df_with_cropped_pos_column.
  destruct sort_bool.
  - assert (Hs : sort_stable user_ts_leb df <> []).
    { intros E. apply Hne. pose proof (sort_stable_perm user_ts_leb df) as P. rewrite E in P.
      apply Permutation_sym, Permutation_nil in P; auto. }
    destruct (crop_core (sort_stable user_ts_leb df) L HL Hs) as [out [E [S1 S2]]].
    destruct (sort_stable user_ts_leb df) eqn:ES; [congruence|]. rewrite <- ES in *.
    exists out. split; auto. split; auto.
    intros u. exists (rows_of u (sort_stable user_ts_leb df)). split; auto.
    rewrite sort_rows_of. apply sort_StableSorted.
  - destruct (crop_core df L HL Hne) as [out [E [S1 S2]]].
    destruct df eqn:ES; [congruence|]. rewrite <- ES in *.
    exists out. split; auto. split; auto.
    intros u. exists (rows_of u df). split; auto.
Qed.

Lemma crop_zero df sort_bool :
  df <> [] -> get_df_with_cropped_pos_column df 0 sort_bool = Err ValueError.
Proof.
  intros Hne. unfold get_df_with_cropped_pos_column.
  assert (G : forall df, df <> [] ->
    mapM (fun u => add_order_cropped (rows_of u df) 0) (np_unique (map r_user df)) = Err ValueError).
  { intros d Hd. destruct (np_unique (map r_user d)) as [|u us] eqn:E.
    - destruct d as [|r d]; [congruence|].
      assert (In (r_user r) (np_unique (map r_user (r :: d)))) by (apply np_unique_In; left; auto).
      rewrite E in H. destruct H.
    - simpl. unfold add_order_cropped.
      assert (Hu : In u (map r_user d)) by (apply np_unique_In; rewrite E; left; auto).
      apply in_map_iff in Hu as [r [Hr Hin]].
      destruct (rows_of u d) as [|r' l] eqn:ER.
      + assert (In r (rows_of u d)) by (apply filter_In; split; auto; apply Z.eqb_eq; auto).
        rewrite ER in H. destruct H.
      + reflexivity. }
  unfold rows_of in G.
  destruct sort_bool.
  - assert (Hs : sort_stable user_ts_leb df <> []).
    { intros E. apply Hne. pose proof (sort_stable_perm user_ts_leb df) as P. rewrite E in P.
      apply Permutation_sym, Permutation_nil in P; auto. }
    destruct (sort_stable user_ts_leb df) eqn:ES; [congruence|]. rewrite <- ES in *.
    rewrite G; auto.
  - destruct df eqn:ES; [congruence|]. rewrite <- ES in *. rewrite G; auto.
Qed.
