(** Proofs about the table cleaning code. *)
From Coq Require Import ZArith List Bool Lia Sorted.
From Verif Require Import Prelude Prelude_proofs Pcore_model Pcore_spec.
Import ListNotations.
Open Scope Z_scope.

Section Sub.
  Context {A : Type}.
  Implicit Types (s l : list A).

  Lemma sub_refl l : subsequence l l.
  Proof. induction l; [constructor | now apply sub_keep]. Qed.

  Lemma sub_trans a b c : @subsequence A a b -> subsequence b c -> subsequence a c.
  Proof.
    intros H1 H2; revert a H1; induction H2; intros a H1; auto.
    - apply sub_drop; auto.
    - inversion H1; subst; [apply sub_drop | apply sub_keep]; auto.
  Qed.

  Lemma sub_filter f l : subsequence (filter f l) l.
  Proof. induction l; cbn; [constructor|]. destruct (f a); [apply sub_keep | apply sub_drop]; auto. Qed.

  Lemma sub_filter_l f s l : subsequence s l -> (forall x, In x s -> f x = true) -> subsequence s (filter f l).
  Proof.
    induction 1; intros Hf; cbn; [constructor | |].
    - destruct (f x); [apply sub_drop|]; auto.
    - rewrite (Hf x) by (left; reflexivity). apply sub_keep, IHsubsequence. intros; apply Hf; right; auto.
  Qed.

  Lemma sub_In s l x : subsequence s l -> In x s -> In x l.
  Proof. induction 1; cbn; intuition. Qed.

  Lemma sub_length s l : subsequence s l -> (length s <= length l)%nat.
  Proof. induction 1; cbn; lia. Qed.

  Lemma sub_nil_l l : subsequence [] l.
  Proof. induction l; constructor; auto. Qed.

  Lemma sub_NoDup s l : subsequence s l -> NoDup l -> NoDup s.
  Proof.
    induction 1; intros ND; auto; inversion ND; subst; auto.
    constructor; auto. intro I; apply H2. now apply (sub_In s l).
  Qed.

  Lemma sub_anti s l : subsequence s l -> subsequence l s -> s = l.
  Proof.
    induction 1; intros H1; auto.
    - exfalso. apply sub_length in H. apply sub_length in H1. cbn in H1. lia.
    - f_equal. apply IHsubsequence. inversion H1; subst; auto.
      apply (sub_trans _ (x :: l)); [apply sub_drop, sub_refl | auto].
  Qed.

  Lemma sub_count f s l : subsequence s l -> (length (filter f s) <= length (filter f l))%nat.
  Proof. induction 1; cbn; auto; destruct (f x); cbn; lia. Qed.

  Lemma at_least_count col p (r : A) l :
    at_least p (fun x => col x = col r) l <-> p <= occurrences col (col r) l.
  Proof.
    unfold at_least, occurrences. split.
    - intros (s & Hs & HP & Hp).
      assert (E : s = filter (fun x => col x =? col r) s).
      { symmetry; apply filter_all. intros x I; apply Z.eqb_eq; auto. }
      pose proof (sub_count (fun x => col x =? col r) s l Hs) as C. rewrite <- E in C. lia.
    - intro H. exists (filter (fun x => col x =? col r) l). split; [apply sub_filter|]. split; auto.
      intros x I; apply filter_In in I as [_ I]. now apply Z.eqb_eq in I.
  Qed.

  Lemma at_least_sub p (P : A -> Prop) s l : subsequence s l -> at_least p P s -> at_least p P l.
  Proof. intros Hs (t & Ht & H); exists t; split; [eapply sub_trans; eauto | exact H]. Qed.
End Sub.

Section Pcore.
  Context {A : Type}.
  Variables user item : A -> Z.
  Notation p_core := (p_core user item).

  Lemma half_spec (col : A -> Z) p data d b :
    half col p data = (d, b) ->
    subsequence d data /\
    (forall s, subsequence s data -> (forall r, In r s -> at_least p (fun x => col x = col r) s) -> subsequence s d) /\
    (b = true -> d = data /\ forall r, In r data -> at_least p (fun x => col x = col r) data) /\
    (b = false -> (length d < length data)%nat).
  Proof.
    unfold half. destruct (forallb _ data) eqn:F; intro E; injection E as <- <-.
    - split; [apply sub_refl|]. split; auto. split; [|discriminate]. split; auto.
      intros r I. apply at_least_count. apply forallb_forall with (x := r) in F; auto. now apply Z.leb_le in F.
    - split; [apply sub_filter|]. split; [|split; [discriminate|]].
      + intros s Hs C. apply sub_filter_l; auto. intros x I. apply Z.leb_le. apply at_least_count.
        now apply (at_least_sub p _ s); auto.
      + intros _. clear -F. assert (G : forall f (l : list A), forallb f l = false -> (length (filter f l) < length l)%nat).
        { intros f l; induction l; cbn; [discriminate|]. destruct (f a); cbn; intro H.
          - apply IHl in H; lia.
          - pose proof (filter_length_le f l); lia. }
        now apply G.
  Qed.

  Lemma pcore_loop_main p : forall fuel data, (length data < fuel)%nat ->
    exists c, pcore_loop user item fuel p data = Ok c /\ largest_core user item p c data.
  Proof.
    induction fuel; intros data L; [lia|]. cbn [pcore_loop].
    destruct (half item p data) as [d1 b1] eqn:E1. destruct (half user p d1) as [d2 b2] eqn:E2.
    pose proof (half_spec item p data d1 b1 E1) as (S1 & M1 & T1 & F1).
    pose proof (half_spec user p d1 d2 b2 E2) as (S2 & M2 & T2 & F2).
    destruct (b2 && b1) eqn:B.
    - apply andb_true_iff in B as [-> ->].
      destruct (T1 eq_refl) as [-> C1]. destruct (T2 eq_refl) as [-> C2].
      exists data. split; auto. split; [apply sub_refl|]. split; auto. intros r I; split; auto.
    - assert (L2 : (length d2 < fuel)%nat).
      { apply sub_length in S1, S2. destruct b1; [|specialize (F1 eq_refl); lia].
        destruct b2; [discriminate|]. specialize (F2 eq_refl); lia. }
      destruct (IHfuel d2 L2) as (c & Ec & Sc & Pc & Mc).
      exists c. split; auto. split; [eapply sub_trans; [|exact S1]; eapply sub_trans; eauto|]. split; auto.
      intros s Hs Hp. apply Mc; auto. apply M2; [apply M1; auto|]; intros r I; apply Hp in I; tauto.
  Qed.

  Lemma pcore_main p fuel data : (length data < fuel)%nat ->
    exists c, pcore_filter user item fuel p data = Ok c /\ largest_core user item p c data.
  Proof.
    intro L. unfold pcore_filter. destruct (Z.eqb_spec p 0); [|now apply pcore_loop_main].
    exists data; split; auto. split; [apply sub_refl|]. split; [|auto].
    intros r I; subst. split; exists []; (split; [apply sub_nil_l|]; split; cbn; [tauto|lia]).
  Qed.

  Lemma largest_unique p c c' data :
    largest_core user item p c data -> largest_core user item p c' data -> c = c'.
  Proof. intros (S1 & P1 & M1) (S2 & P2 & M2). apply sub_anti; auto. Qed.

  Lemma largest_idem p c data : largest_core user item p c data -> largest_core user item p c c.
  Proof. intros (S1 & P1 & M1). split; [apply sub_refl|]. split; auto. Qed.

  Lemma pcore_again p fuel fuel' data c : (length data < fuel)%nat -> (length data < fuel')%nat ->
    pcore_filter user item fuel p data = Ok c -> pcore_filter user item fuel' p c = Ok c.
  Proof.
    intros L L' E. destruct (pcore_main p fuel data L) as (c' & E' & H). rewrite E in E'; injection E' as <-.
    destruct H as (S1 & P1 & M1). assert (Lc := sub_length _ _ S1).
    destruct (pcore_main p fuel' c) as (c2 & E2 & H2); [lia|]. rewrite E2. f_equal.
    apply (largest_unique p c2 c c H2). eapply largest_idem. split; eauto.
  Qed.

  (** The pairs of a table. *)
  Definition pair (r : A) : Z * Z := (user r, item r).

  Lemma drop_sub data : subsequence (drop_duplicates user item data) data.
  Proof.
    induction data; cbn; [constructor|]. destruct (existsb _ data); [apply sub_drop | apply sub_keep]; auto.
  Qed.

  Lemma exists_pair r data :
    existsb (fun s => (user s =? user r) && (item s =? item r)) data = true <-> In (pair r) (map pair data).
  Proof.
    rewrite existsb_exists, in_map_iff. split; intros (x & H & I).
    - apply andb_true_iff in I as [U V]. apply Z.eqb_eq in U, V. exists x; split; auto. unfold pair; congruence.
    - exists x; split; auto. unfold pair in H; injection H as -> ->. now rewrite !Z.eqb_refl.
  Qed.

  Lemma drop_pairs data q : In q (map pair (drop_duplicates user item data)) <-> In q (map pair data).
  Proof.
    induction data; cbn; [tauto|]. destruct (existsb _ data) eqn:E; cbn; rewrite IHdata; [|tauto].
    apply exists_pair in E. split; [tauto|]. intros [<-|]; auto.
  Qed.

  Lemma drop_NoDup data : NoDup (map pair (drop_duplicates user item data)).
  Proof.
    induction data; cbn; [constructor|]. destruct (existsb _ data) eqn:E; auto. cbn. constructor; auto.
    rewrite drop_pairs, <- exists_pair. now rewrite E.
  Qed.

  Lemma sub_map {B} (f : A -> B) s l : subsequence s l -> subsequence (map f s) (map f l).
  Proof. induction 1; cbn; [constructor | apply sub_drop; auto | apply sub_keep; auto]. Qed.

  (** The row kept for a pair is the last one. *)
  Lemma drop_In data r :
    In r (drop_duplicates user item data) <->
    exists pre post, data = pre ++ r :: post /\ ~ In (pair r) (map pair post).
  Proof.
    induction data as [|a data IH]; cbn.
    - split; [tauto|]. intros ([|] & post & E & _); discriminate.
    - destruct (existsb _ data) eqn:E.
      + rewrite IH. split.
        * intros (pre & post & -> & H). exists (a :: pre), post; auto.
        * intros ([|b pre] & post & H & N); injection H as -> ->.
          -- exfalso; apply N. now apply exists_pair.
          -- exists pre, post; auto.
      + cbn. rewrite IH. split.
        * intros [<-|(pre & post & -> & H)].
          -- exists [], data; split; auto. rewrite <- exists_pair. now rewrite E.
          -- exists (a :: pre), post; auto.
        * intros ([|b pre] & post & H & N); injection H as -> ->; [auto|]. right. exists pre, post; auto.
  Qed.

  Lemma NoDup_fst_distinct (l : list A) u : NoDup (map pair l) -> (forall r, In r l -> user r = u) -> NoDup (map item l).
  Proof.
    induction l; cbn; intros N H; [constructor|]. inversion N; subst. constructor; [|apply IHl; auto].
    intro I. apply H2. apply in_map_iff in I as (x & E & I). apply in_map_iff. exists x; split; auto.
    unfold pair. rewrite E. f_equal. rewrite (H x) by auto. symmetry; apply H; auto.
  Qed.

  Lemma NoDup_snd_distinct (l : list A) u : NoDup (map pair l) -> (forall r, In r l -> item r = u) -> NoDup (map user l).
  Proof.
    induction l; cbn; intros N H; [constructor|]. inversion N; subst. constructor; [|apply IHl; auto].
    intro I. apply H2. apply in_map_iff in I as (x & E & I). apply in_map_iff. exists x; split; auto.
    unfold pair. rewrite E. f_equal. rewrite (H x) by auto. symmetry; apply H; auto.
  Qed.

  Lemma count_pairs (g : Z * Z -> bool) (l : list A) :
    length (filter (fun r => g (pair r)) l) = length (filter g (map pair l)).
  Proof. induction l; cbn; auto. destruct (g (pair a)); cbn; auto. Qed.

  Lemma filter_map_pair (g : Z * Z -> bool) (l : list A) :
    map pair (filter (fun r => g (pair r)) l) = filter g (map pair l).
  Proof. induction l; cbn; auto. destruct (g (pair a)); cbn; congruence. Qed.

  Lemma count_same (g : Z * Z -> bool) (s t : list A) :
    NoDup (map pair s) -> NoDup (map pair t) -> (forall q, In q (map pair s) <-> In q (map pair t)) ->
    length (filter (fun r => g (pair r)) s) = length (filter (fun r => g (pair r)) t).
  Proof.
    intros Ns Nt H. rewrite !count_pairs.
    assert (G : forall a b : list (Z * Z), NoDup a -> (forall q, In q a -> In q b) ->
                  (length (filter g a) <= length (filter g b))%nat).
    { intros a b Na Hab. apply NoDup_incl_length; [now apply NoDup_filter|].
      intros q I. apply filter_In in I as [I1 I2]. apply filter_In; auto. }
    apply Nat.le_antisymm; apply G; auto; intros q I; apply H; auto.
  Qed.

  Definition pair_eqb (p q : Z * Z) : bool := (fst p =? fst q) && (snd p =? snd q).
  Lemma pair_eqb_eq p q : pair_eqb p q = true <-> p = q.
  Proof.
    destruct p, q; unfold pair_eqb; cbn. rewrite andb_true_iff, !Z.eqb_eq. split; [intros []; congruence|].
    intro H; injection H; auto.
  Qed.

  (** A p-core with distinct pairs can be moved to the rows kept by the de-duplication. *)
  Lemma core_moves p data s :
    subsequence s data -> NoDup (map pair s) -> p_core p s ->
    exists t, subsequence t (drop_duplicates user item data) /\ p_core p t /\
              (forall q, In q (map pair s) <-> In q (map pair t)).
  Proof.
    intros Hs Ns Hp.
    set (mem := fun q => existsb (pair_eqb q) (map pair s)).
    assert (Hmem : forall q, mem q = true <-> In q (map pair s)).
    { intro q. unfold mem. rewrite existsb_exists. split.
      - intros (x & I & E). apply pair_eqb_eq in E. now subst.
      - intro I. exists q; split; auto. now apply pair_eqb_eq. }
    set (t := filter (fun r => mem (pair r)) (drop_duplicates user item data)).
    assert (Nt : NoDup (map pair t)).
    { unfold t. rewrite filter_map_pair. apply NoDup_filter, drop_NoDup. }
    assert (Same : forall q, In q (map pair s) <-> In q (map pair t)).
    { intro q. unfold t. rewrite filter_map_pair, filter_In, drop_pairs, Hmem. split; [|tauto].
      intro I; split; auto. apply in_map_iff in I as (x & <- & I). apply in_map. now apply (sub_In s data). }
    exists t. split; [apply sub_filter|]. split; auto.
    intros r I. assert (Ir : In (pair r) (map pair s)) by (apply Same, in_map; auto).
    apply in_map_iff in Ir as (x & E & Ix). destruct (Hp x Ix) as [H1 H2].
    unfold pair in E; injection E as Eu Ei. rewrite at_least_count in *. unfold occurrences in *.
    assert (Cu := count_same (fun q => fst q =? user r) s t Ns Nt Same).
    assert (Ci := count_same (fun q => snd q =? item r) s t Ns Nt Same).
    unfold pair in Cu, Ci; cbn in Cu, Ci. rewrite Eu in H1. rewrite Ei in H2. split.
    - rewrite <- Cu; auto.
    - rewrite at_least_count in *. unfold occurrences in *. rewrite <- Ci; auto.
  Qed.

  Lemma steam_main fuel data : (length data < fuel)%nat ->
    exists c, steam_table user item fuel data = Ok c /\
      subsequence c data /\ NoDup (map pair c) /\
      (forall r, In r c -> exists items users,
          NoDup items /\ (5 <= length items)%nat /\ (forall i, In i items -> In (user r, i) (map pair c)) /\
          NoDup users /\ (5 <= length users)%nat /\ (forall u, In u users -> In (u, item r) (map pair c))) /\
      (forall s, subsequence s data -> NoDup (map pair s) -> p_core 5 s ->
                 forall q, In q (map pair s) -> In q (map pair c)) /\
      (forall r, In r c -> exists pre post, data = pre ++ r :: post /\ ~ In (pair r) (map pair post)).
  Proof.
    intro L. unfold steam_table. assert (D := drop_sub data).
    destruct (pcore_main 5 fuel (drop_duplicates user item data)) as (c & E & Sc & Pc & Mc).
    { apply sub_length in D; lia. }
    assert (Nc : NoDup (map pair c)).
    { apply (sub_NoDup _ (map pair (drop_duplicates user item data))); [now apply sub_map | apply drop_NoDup]. }
    exists c. split; auto. split; [eapply sub_trans; eauto|]. split; auto. split; [|split].
    - intros r I. destruct (Pc r I) as [H1 H2]. apply at_least_count in H1. apply at_least_count in H2.
      unfold occurrences in *.
      exists (map item (filter (fun x => user x =? user r) c)), (map user (filter (fun x => item x =? item r) c)).
      rewrite !map_length.
      assert (Fu : NoDup (map pair (filter (fun x => user x =? user r) c))).
      { rewrite (filter_map_pair (fun q => fst q =? user r)). now apply NoDup_filter. }
      assert (Fi : NoDup (map pair (filter (fun x => item x =? item r) c))).
      { rewrite (filter_map_pair (fun q => snd q =? item r)). now apply NoDup_filter. }
      split; [|split; [lia|split; [|split; [|split; [lia|]]]]].
      + apply (NoDup_fst_distinct _ (user r)); auto. intros x J; apply filter_In in J as [_ J]; now apply Z.eqb_eq.
      + intros i J. apply in_map_iff in J as (x & <- & J). apply filter_In in J as [J K]. apply Z.eqb_eq in K.
        rewrite <- K. now apply (in_map pair).
      + apply (NoDup_snd_distinct _ (item r)); auto. intros x J; apply filter_In in J as [_ J]; now apply Z.eqb_eq.
      + intros i J. apply in_map_iff in J as (x & <- & J). apply filter_In in J as [J K]. apply Z.eqb_eq in K.
        rewrite <- K. now apply (in_map pair).
    - intros s Hs Ns Hp q I. destruct (core_moves 5 data s Hs Ns Hp) as (t & St & Pt & Eq).
      apply Eq in I. apply (sub_In _ _ q (sub_map pair _ _ (Mc t St Pt))). exact I.
    - intros r I. apply drop_In. now apply (sub_In c).
  Qed.
End Pcore.

(** Codes of a sorted list of categories. *)
Lemma index_range x l : In x l -> 0 <= index_of x l < Z.of_nat (length l).
Proof.
  induction l; [intros []|]. cbn [index_of length]. intros I. destruct (Z.eqb_spec x a); [lia|].
  destruct I as [<-|I]; [congruence|]. apply IHl in I. lia.
Qed.

Lemma index_lt x y l : StronglySorted (fun a b => Z.leb a b = true) l -> In x l -> In y l ->
  (index_of x l < index_of y l <-> x < y).
Proof.
  induction 1 as [|a l S IH F]; [intros []|]. cbn [index_of]. intros Ix Iy.
  rewrite Forall_forall in F.
  destruct (Z.eqb_spec x a) as [->|Nx], (Z.eqb_spec y a) as [->|Ny]; [lia| | |].
  - destruct Iy as [<-|Iy]; [congruence|]. pose proof (index_range y l Iy). specialize (F y Iy). lia.
  - destruct Ix as [<-|Ix]; [congruence|]. pose proof (index_range x l Ix). specialize (F x Ix). lia.
  - destruct Iy as [<-|Iy]; [congruence|]. destruct Ix as [<-|Ix]; [congruence|]. specialize (IH Ix Iy). lia.
Qed.

Lemma index_onto l c : NoDup l -> 0 <= c < Z.of_nat (length l) -> exists x, In x l /\ index_of x l = c.
Proof.
  revert c; induction l; intros c N H; cbn [length] in H; [lia|]. inversion N; subst.
  destruct (Z.eq_dec c 0) as [->|Nz].
  - exists a. split; [left; auto|]. cbn. now rewrite Z.eqb_refl.
  - destruct (IHl (c - 1)) as (x & I & E); auto; [lia|]. exists x. split; [right; auto|].
    cbn [index_of]. destruct (Z.eqb_spec x a); [subst; contradiction | lia].
Qed.

Lemma encode_main values : renumbers values (encode_column values).
Proof.
  unfold encode_column. split; [apply map_length|]. split.
  - intros i j x y a b Ex Ey Ea Eb.
    rewrite nth_error_map, Ex in Ea. rewrite nth_error_map, Ey in Eb. injection Ea as <-. injection Eb as <-.
    apply index_lt; [apply np_unique_sorted | |]; apply np_unique_In; eapply nth_error_In; eauto.
  - exists (length (np_unique values)). intro c. rewrite in_map_iff. split.
    + intros (x & <- & I). apply index_range, np_unique_In, I.
    + intro H. destruct (index_onto _ _ (np_unique_NoDup values) H) as (x & I & E). exists x; split; auto.
      now apply np_unique_In.
Qed.
