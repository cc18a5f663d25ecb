(** Generic lemmas about the prelude; no statement about /repo here. *)
From Coq Require Import ZArith List Bool Lia Permutation Sorted.
From Verif Require Import Prelude.
Import ListNotations.
Open Scope Z_scope.

Lemma dget_dset {V} k k' (v : V) d :
  dget k (dset k' v d) = if k =? k' then Some v else dget k d.
Proof.
  induction d as [|[k0 v0] d IH]; simpl.
  - destruct (k =? k') eqn:E; reflexivity.
  - destruct (k' =? k0) eqn:E0; simpl.
    + apply Z.eqb_eq in E0; subst. destruct (k =? k0); reflexivity.
    + destruct (k =? k0) eqn:E1; [|exact IH].
      apply Z.eqb_eq in E1; subst.
      destruct (k0 =? k') eqn:E2; auto.
      apply Z.eqb_eq in E2; subst. rewrite Z.eqb_refl in E0. discriminate.
Qed.

Lemma dget_dset_eq {V} k (v : V) d : dget k (dset k v d) = Some v.
Proof. rewrite dget_dset, Z.eqb_refl; reflexivity. Qed.

Lemma dget_dset_ne {V} k k' (v : V) d : k <> k' -> dget k (dset k' v d) = dget k d.
Proof. intros H. rewrite dget_dset. apply Z.eqb_neq in H. rewrite H; reflexivity. Qed.

Lemma dget_In {V} k (v : V) d : dget k d = Some v -> In (k, v) d.
Proof.
  induction d as [|[k0 v0] d IH]; simpl; [discriminate|].
  destruct (k =? k0) eqn:E; intros H.
  - apply Z.eqb_eq in E; inversion H; subst; auto.
  - right; auto.
Qed.

Lemma dget_None_notin {V} k (d : dict V) : dget k d = None <-> ~ In k (dkeys d).
Proof.
  induction d as [|[k0 v0] d IH]; simpl; [tauto|].
  destruct (k =? k0) eqn:E.
  - apply Z.eqb_eq in E; subst. split; [discriminate|]. intros H; exfalso; apply H; auto.
  - apply Z.eqb_neq in E. rewrite IH. split; [intros H [H1|H1]; auto|tauto].
Qed.

Lemma dget_Some_in {V} k (d : dict V) : (exists v, dget k d = Some v) <-> In k (dkeys d).
Proof.
  destruct (dget k d) as [v|] eqn:E.
  - split; [|eauto]. intros _. apply dget_In in E. apply in_map_iff. exists (k, v); auto.
  - apply dget_None_notin in E. split; [intros [v H]; discriminate|tauto].
Qed.

Lemma dkeys_dset {V} k (v : V) d :
  dkeys (dset k v d) = if dmem k d then dkeys d else dkeys d ++ [k].
Proof.
  unfold dmem. induction d as [|[k0 v0] d IH]; simpl; auto.
  destruct (k =? k0) eqn:E; simpl; auto.
  rewrite IH. destruct (dget k d); reflexivity.
Qed.

Lemma NoDup_app_single {A} (l : list A) x : NoDup l -> ~ In x l -> NoDup (l ++ [x]).
Proof.
  intros H1 H2. apply NoDup_rev in H1.
  rewrite <- (rev_involutive (l ++ [x])). apply NoDup_rev.
  rewrite rev_app_distr; simpl. constructor; auto.
  rewrite <- in_rev; auto.
Qed.

Lemma NoDup_dkeys_dset {V} k (v : V) d : NoDup (dkeys d) -> NoDup (dkeys (dset k v d)).
Proof.
  intros H. rewrite dkeys_dset. unfold dmem.
  destruct (dget k d) eqn:E; auto.
  apply NoDup_app_single; auto. apply dget_None_notin; auto.
Qed.

Lemma In_dget {V} k (v : V) d : NoDup (dkeys d) -> In (k, v) d -> dget k d = Some v.
Proof.
  induction d as [|[k0 v0] d IH]; simpl; [tauto|].
  intros Hnd [H|H]; inversion Hnd; subst.
  - inversion H; subst. rewrite Z.eqb_refl; auto.
  - destruct (k =? k0) eqn:E; auto.
    apply Z.eqb_eq in E; subst. exfalso. apply H2.
    apply in_map_iff. exists (k0, v); auto.
Qed.

Lemma memZ_spec x l : memZ x l = true <-> In x l.
Proof.
  unfold memZ. rewrite existsb_exists. split.
  - intros [y [H1 H2]]. apply Z.eqb_eq in H2; subst; auto.
  - intros H; exists x; split; auto. apply Z.eqb_refl.
Qed.

Lemma memZ_false x l : memZ x l = false <-> ~ In x l.
Proof.
  rewrite <- memZ_spec. destruct (memZ x l); split; intros; try congruence; try tauto.
Qed.

Lemma enumerate_length {A} s (l : list A) : length (enumerate s l) = length l.
Proof. revert s; induction l; simpl; auto. Qed.

Lemma enumerate_snd {A} s (l : list A) : map snd (enumerate s l) = l.
Proof. revert s; induction l; intros; simpl; f_equal; auto. Qed.

Lemma enumerate_fst {A} s (l : list A) :
  map fst (enumerate s l) = map (fun i => s + Z.of_nat i) (seq 0 (length l)).
Proof.
  revert s; induction l as [|x l IH]; intros s; simpl; auto.
  f_equal; [lia|]. rewrite IH, <- seq_shift, map_map.
  apply map_ext; intros; lia.
Qed.

Lemma enumerate_app {A} s (l1 l2 : list A) :
  enumerate s (l1 ++ l2) = enumerate s l1 ++ enumerate (s + Z.of_nat (length l1)) l2.
Proof.
  revert s; induction l1 as [|x l1 IH]; intros s; simpl.
  - f_equal; lia.
  - rewrite IH. do 3 f_equal. lia.
Qed.

Lemma enumerate_In {A} s (l : list A) i x :
  In (i, x) (enumerate s l) <-> s <= i /\ nth_error l (Z.to_nat (i - s)) = Some x.
Proof.
  revert s; induction l as [|y l IH]; intros s; simpl.
  - split; [tauto|]. intros [_ H]. destruct (Z.to_nat (i - s)); discriminate.
  - rewrite IH. split.
    + intros [H|[H1 H2]].
      * inversion H; subst. split; [lia|]. rewrite Z.sub_diag; reflexivity.
      * split; [lia|]. replace (Z.to_nat (i - s)) with (S (Z.to_nat (i - (s+1)))) by lia.
        exact H2.
    + intros [H1 H2]. destruct (Z.eq_dec i s) as [->|H].
      * left. rewrite Z.sub_diag in H2; simpl in H2. congruence.
      * right. split; [lia|].
        replace (Z.to_nat (i - s)) with (S (Z.to_nat (i - (s+1)))) in H2 by lia. exact H2.
Qed.

Lemma unique_In x l : In x (unique l) <-> In x l.
Proof.
  induction l as [|y l IH]; simpl; [tauto|].
  rewrite filter_In, IH. destruct (Z.eq_dec x y) as [->|H].
  - tauto.
  - rewrite (proj2 (Z.eqb_neq _ _) H). simpl. intuition congruence.
Qed.

Lemma NoDup_filter_Z (f : Z -> bool) l : NoDup l -> NoDup (filter f l).
Proof. apply NoDup_filter. Qed.

Lemma unique_NoDup l : NoDup (unique l).
Proof.
  induction l as [|y l IH]; simpl; constructor.
  - rewrite filter_In. rewrite Z.eqb_refl; simpl. intros [_ H]; discriminate.
  - apply NoDup_filter; auto.
Qed.

Lemma unique_id l : NoDup l -> unique l = l.
Proof.
  induction 1 as [|x l Hx Hl IH]; simpl; auto.
  f_equal. rewrite IH.
  assert (H : forall l', ~ In x l' -> filter (fun y => negb (y =? x)) l' = l').
  { induction l' as [|z l' IH']; simpl; auto. intros H.
    destruct (z =? x) eqn:E; simpl.
    - apply Z.eqb_eq in E; subst. exfalso; auto.
    - f_equal; auto. }
  auto.
Qed.

Lemma filter_filter {A} (f g : A -> bool) l :
  filter f (filter g l) = filter (fun x => g x && f x) l.
Proof.
  induction l as [|x l IH]; simpl; auto.
  destruct (g x) eqn:G; simpl; rewrite IH; reflexivity.
Qed.

Lemma unique_app l1 l2 :
  unique (l1 ++ l2) = unique l1 ++ filter (fun y => negb (memZ y l1)) (unique l2).
Proof.
  induction l1 as [|x l1 IH]; simpl.
  - induction (unique l2) as [|y u IHu]; simpl; auto. f_equal; auto.
  - f_equal. rewrite IH, filter_app. f_equal.
    rewrite filter_filter. apply filter_ext. intros y.
    unfold memZ; simpl. rewrite negb_orb. apply andb_comm.
Qed.

Lemma lastn_all {A} n (l : list A) : (length l <= n)%nat -> lastn n l = l.
Proof. intros H. unfold lastn. replace (length l - n)%nat with 0%nat by lia. reflexivity. Qed.

Lemma lastn_length {A} n (l : list A) : length (lastn n l) = Nat.min n (length l).
Proof. unfold lastn. rewrite skipn_length. lia. Qed.

Lemma lastn_app_le {A} n (l1 l2 : list A) :
  (length l2 <= n)%nat -> lastn n (l1 ++ l2) = lastn (n - length l2) l1 ++ l2.
Proof.
  intros H. unfold lastn. rewrite skipn_app, app_length.
  replace (length l1 + length l2 - n - length l1)%nat with 0%nat by lia.
  f_equal. f_equal. lia.
Qed.

Lemma lastn_app_ge {A} n (l1 l2 : list A) :
  (n <= length l2)%nat -> lastn n (l1 ++ l2) = lastn n l2.
Proof.
  intros H. unfold lastn. rewrite skipn_app, app_length.
  rewrite skipn_all2 by lia. simpl. f_equal. lia.
Qed.

Lemma lastn_lastn {A} n m (l : list A) :
  (n <= m)%nat -> lastn n (lastn m l) = lastn n l.
Proof.
  intros H. unfold lastn at 2. destruct (Nat.le_gt_cases (length l) m) as [Hm|Hm].
  - replace (length l - m)%nat with 0%nat by lia. reflexivity.
  - symmetry. set (s := skipn (length l - m) l).
    assert (E : l = firstn (length l - m) l ++ s) by (symmetry; apply firstn_skipn).
    rewrite E. apply lastn_app_ge. unfold s. rewrite skipn_length. lia.
Qed.

Lemma lastn_suffix {A} n (l : list A) : exists p, l = p ++ lastn n l.
Proof. exists (firstn (length l - n) l). unfold lastn. symmetry. apply firstn_skipn. Qed.

Lemma mapM_Ok_iff {A B} (f : A -> res B) l ys :
  mapM f l = Ok ys <-> Forall2 (fun x y => f x = Ok y) l ys.
Proof.
  revert ys; induction l as [|x l IH]; intros ys; simpl.
  - split; intros H; [inversion H; constructor|inversion H; reflexivity].
  - destruct (f x) as [y|e] eqn:E; simpl.
    + destruct (mapM f l) as [ys'|e] eqn:E'; simpl.
      * split; intros H.
        -- inversion H; subst. constructor; auto. apply IH; reflexivity.
        -- inversion H; subst. rewrite E in H2. inversion H2; subst.
           apply IH in H4. congruence.
      * split; intros H; [discriminate|]. inversion H; subst.
        apply IH in H4. discriminate.
    + split; intros H; [discriminate|]. inversion H; subst. congruence.
Qed.

Lemma mapM_ext_Ok {A B} (f : A -> res B) (g : A -> B) l :
  (forall x, In x l -> f x = Ok (g x)) -> mapM f l = Ok (map g l).
Proof.
  induction l as [|x l IH]; simpl; auto. intros H.
  rewrite H by auto. simpl. rewrite IH by auto. reflexivity.
Qed.

Section SortLemmas.
  Context {A : Type} (leb : A -> A -> bool).

  Lemma insert_sorted_perm x l : Permutation (x :: l) (insert_sorted leb x l).
  Proof.
    induction l as [|y l IH]; simpl; auto.
    destruct (leb x y); auto.
    etransitivity; [apply perm_swap|]. constructor; auto.
  Qed.

  Lemma sort_stable_perm l : Permutation l (sort_stable leb l).
  Proof.
    induction l as [|x l IH]; simpl; auto.
    etransitivity; [|apply insert_sorted_perm]. constructor; auto.
  Qed.

  Hypothesis leb_total : forall x y, leb x y = true \/ leb y x = true.
  Hypothesis leb_trans : forall x y z, leb x y = true -> leb y z = true -> leb x z = true.

  Let le x y := leb x y = true.

  Lemma insert_sorted_sorted x l :
    StronglySorted le l -> StronglySorted le (insert_sorted leb x l).
  Proof.
    induction 1 as [|y l Hl IH Hy]; simpl.
    - constructor; constructor.
    - destruct (leb x y) eqn:E.
      + constructor; [constructor; auto|]. constructor; auto.
        eapply Forall_impl; [|exact Hy]. intros z Hz. eapply leb_trans; eauto.
      + constructor; auto.
        assert (Hyx : leb y x = true) by (destruct (leb_total x y); congruence).
        apply (Permutation_Forall (insert_sorted_perm x l)). constructor; auto.
  Qed.

  Lemma sort_stable_sorted l : StronglySorted le (sort_stable leb l).
  Proof. induction l; simpl; [constructor|]. apply insert_sorted_sorted; auto. Qed.

  Lemma sort_stable_id l : StronglySorted le l -> sort_stable leb l = l.
  Proof.
    induction 1 as [|x l Hl IH Hx]; simpl; auto.
    rewrite IH. destruct l as [|y l]; auto. simpl.
    inversion Hx; subst. unfold le in H1. rewrite H1. reflexivity.
  Qed.
End SortLemmas.

Lemma np_unique_In x l : In x (np_unique l) <-> In x l.
Proof.
  unfold np_unique. rewrite <- (unique_In x l).
  split; apply Permutation_in; [symmetry|]; apply sort_stable_perm.
Qed.

Lemma np_unique_NoDup l : NoDup (np_unique l).
Proof.
  unfold np_unique. eapply Permutation_NoDup; [apply sort_stable_perm|apply unique_NoDup].
Qed.

Lemma Zleb_total x y : Z.leb x y = true \/ Z.leb y x = true.
Proof. rewrite !Z.leb_le. lia. Qed.
Lemma Zleb_trans x y z : Z.leb x y = true -> Z.leb y z = true -> Z.leb x z = true.
Proof. rewrite !Z.leb_le. lia. Qed.

Lemma np_unique_sorted l : StronglySorted (fun x y => Z.leb x y = true) (np_unique l).
Proof. apply sort_stable_sorted; [apply Zleb_total|apply Zleb_trans]. Qed.

Lemma select_map {A B} (f : A -> B) m l : select m (map f l) = map f (select m l).
Proof.
  revert m; induction l as [|x l IH]; intros [|[] m]; simpl; auto. f_equal; auto.
Qed.

Lemma select_filter {A} (f : A -> bool) l : select (map f l) l = filter f l.
Proof. induction l as [|x l IH]; simpl; auto. destruct (f x); [f_equal|]; auto. Qed.

Lemma set_nth_length {A} i (v : A) l : length (set_nth i v l) = length l.
Proof. revert i; induction l; intros [|i]; simpl; auto. Qed.

Lemma nth_error_set_nth {A} i j (v : A) l :
  nth_error (set_nth i v l) j =
  if Nat.eqb i j then (match nth_error l j with Some _ => Some v | None => None end)
  else nth_error l j.
Proof.
  revert i j; induction l as [|x l IH]; intros [|i] [|j]; simpl; auto.
  - destruct (Nat.eqb i j); reflexivity.
Qed.

Lemma NoDup_app_intro {A} (l1 l2 : list A) :
  NoDup l1 -> NoDup l2 -> (forall x, In x l1 -> ~ In x l2) -> NoDup (l1 ++ l2).
Proof.
  induction 1 as [|x l1 Hx Hl IH]; simpl; auto. intros H2 H.
  constructor.
  - rewrite in_app_iff. intros [H3|H3]; [auto|]. apply (H x); auto.
  - apply IH; auto.
Qed.

Lemma NoDup_app_inv {A} (l1 l2 : list A) :
  NoDup (l1 ++ l2) -> NoDup l1 /\ NoDup l2 /\ (forall x, In x l1 -> ~ In x l2).
Proof.
  induction l1 as [|x l1 IH]; simpl; intros H.
  - split; [constructor|]. split; auto.
  - inversion H; subst. apply IH in H3 as [H3 [H4 H5]].
    rewrite in_app_iff in H2. split; [constructor; tauto|].
    split; auto. intros y [->|Hy]; auto.
Qed.

Lemma Forall2_impl {A B} (P Q : A -> B -> Prop) l l' :
  (forall x y, P x y -> Q x y) -> Forall2 P l l' -> Forall2 Q l l'.
Proof. intros HI. induction 1; constructor; auto. Qed.

Lemma skipn_skipn {A} (x y : nat) (l : list A) : skipn x (skipn y l) = skipn (x + y) l.
Proof.
  revert l. induction y as [|y IH]; intros l.
  - rewrite Nat.add_0_r. reflexivity.
  - rewrite Nat.add_succ_r. destruct l; simpl; [apply skipn_nil|apply IH].
Qed.

Lemma nth_error_ext_length {A} (l l' : list A) :
  length l = length l' ->
  (forall n x, nth_error l n = Some x -> nth_error l' n = Some x) -> l = l'.
Proof.
  revert l'. induction l as [|x l IH]; intros [|y l'] HL H; simpl in HL; try discriminate; auto.
  pose proof (H 0%nat x eq_refl) as E. simpl in E. inversion E; subst. f_equal.
  apply IH; [lia|]. intros n z Hn. apply (H (S n) z Hn).
Qed.

Lemma filter_length_le {A} (f : A -> bool) l : (length (filter f l) <= length l)%nat.
Proof. induction l as [|x l IH]; simpl; auto. destruct (f x); simpl; lia. Qed.

Lemma Forall2_len {A B} (P : A -> B -> Prop) l l' : Forall2 P l l' -> length l = length l'.
Proof. induction 1; simpl; auto. Qed.

Lemma filter_all {A} (f : A -> bool) l : (forall x, In x l -> f x = true) -> filter f l = l.
Proof.
  induction l as [|x l IH]; intros H; simpl; auto.
  rewrite (H x) by (left; auto). f_equal. apply IH. intros; apply H; right; auto.
Qed.
