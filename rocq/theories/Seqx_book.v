(** The data handling of the sequential models in terms of the rows given. *)
From Coq Require Import ZArith List Bool Lia Permutation Sorted.
From Verif Require Import Prelude Prelude_proofs DataPrep_model DataPrep_spec DataPrep_proofs DataPrep_main
  History_model History_spec History_proofs History_main Recommend_model Recommend_spec Recommend_main Psi_model Psi_spec
  Tirec_model Tirec_spec Tirec_proofs Tirec_main Tirec_assembly Tirec_stream Full_spec Seqx_spec.
Import ListNotations.
Open Scope Z_scope.

(** ** Lists *)
Lemma lastn_more {X} n (a b : list X) : lastn n (lastn n a ++ b) = lastn n (a ++ b).
Proof.
  destruct (le_lt_dec n (length b)).
  - now rewrite !lastn_app_ge.
  - rewrite !lastn_app_le by lia. f_equal. apply lastn_lastn. lia.
Qed.
Lemma lastn_repeat {X} (x : X) n m : (n <= m)%nat -> lastn n (repeat x m) = repeat x n.
Proof.
  intros H. unfold lastn. rewrite repeat_length. replace m with ((m - n) + n)%nat at 2 by lia.
  rewrite repeat_app, skipn_app, repeat_length, skipn_all2 by (rewrite repeat_length; lia). rewrite Nat.sub_diag. reflexivity.
Qed.
Lemma pad_split L l : lastn L (repeat PAD_VALUE L ++ l) = repeat PAD_VALUE (L - length l) ++ lastn L l.
Proof.
  destruct (le_lt_dec L (length l)).
  - rewrite lastn_app_ge by lia. replace (L - length l)%nat with 0%nat by lia. reflexivity.
  - rewrite lastn_app_le by lia. rewrite lastn_repeat by lia. now rewrite (lastn_all L l) by lia.
Qed.
Lemma lastn_incl {X} n (l : list X) x : In x (lastn n l) -> In x l.
Proof. intros H. destruct (lastn_suffix n l) as [p E]. rewrite E. apply in_or_app. auto. Qed.
Definition nopad (l : list Z) : Prop := forall j, In j l -> j <> PAD_VALUE.
Lemma pad_inj L l l' : nopad l -> nopad l' ->
  (lastn L (repeat PAD_VALUE L ++ l) = lastn L (repeat PAD_VALUE L ++ l') <-> lastn L l = lastn L l').
Proof.
  intros N N'. rewrite !pad_split.
  assert (F : forall l, nopad l -> filter (fun x => negb (x =? PAD_VALUE)) (repeat PAD_VALUE (L - length l) ++ lastn L l) = lastn L l).
  { clear. intros l N. rewrite filter_app, (filter_none _ (repeat _ _)).
    - cbn [app]. assert (N' : nopad (lastn L l)) by (intros x Hx; apply lastn_incl, N in Hx; exact Hx). clear N.
      induction (lastn L l) as [|x k IH]; cbn; auto. destruct (Z.eqb_spec x PAD_VALUE) as [E|E].
      + exfalso. apply (N' x); [now left|exact E].
      + cbn. f_equal. apply IH. intros y Hy. apply N'. now right.
    - intros x Hx. apply repeat_spec in Hx. subst. reflexivity. }
  split; intros H.
  - now rewrite <- (F l N), <- (F l' N'), H.
  - f_equal; auto. f_equal. apply (f_equal (@length Z)) in H. rewrite !lastn_length in H. lia.
Qed.
Lemma pad_In L l j : j <> PAD_VALUE -> (In j (lastn L (repeat PAD_VALUE L ++ l)) <-> In j (lastn L l)).
Proof.
  intros N. rewrite pad_split, in_app_iff. split; [|auto]. intros [H|H]; [|auto]. apply repeat_spec in H. congruence.
Qed.
Lemma at_pos_nth p i l : at_pos 0 (Z.of_nat p) i l = match nth_error l p with
  | Some j => if (j =? i) && negb (j =? PAD_VALUE) then 1 else 0 | None => 0 end.
Proof. unfold at_pos. rewrite Z.sub_0_r, Nat2Z.id. destruct (Z.ltb_spec (Z.of_nat p) 0); [lia|reflexivity]. Qed.
Lemma nth_error_ext {X} (l : list X) : forall l', (forall p, nth_error l p = nth_error l' p) -> l = l'.
Proof.
  induction l as [|a l IH]; intros [|b l'] H; auto.
  - specialize (H 0%nat). discriminate.
  - specialize (H 0%nat). discriminate.
  - f_equal; [specialize (H 0%nat); cbn in H; congruence|]. apply IH. intros p. apply (H (S p)).
Qed.
Lemma at_pos_ext l l' : length l = length l' -> (forall p i, at_pos 0 p i l = at_pos 0 p i l') -> l = l'.
Proof.
  intros HL H. apply nth_error_ext. intros p. pose proof (fun i => H (Z.of_nat p) i) as G. clear H.
  setoid_rewrite at_pos_nth in G.
  destruct (nth_error l p) as [a|] eqn:E1, (nth_error l' p) as [b|] eqn:E2; auto.
  - destruct (Z.eq_dec a b) as [->|N]; auto. exfalso. pose proof (G a) as Ga. pose proof (G b) as Gb. rewrite Z.eqb_refl in Ga, Gb.
    destruct (Z.eqb_spec b a); [congruence|]. destruct (Z.eqb_spec a b); [congruence|]. cbn [andb] in *.
    destruct (Z.eqb_spec a PAD_VALUE), (Z.eqb_spec b PAD_VALUE); cbn in *; try discriminate; congruence.
  - apply nth_error_None in E2. assert (p < length l)%nat by (apply nth_error_Some; congruence). lia.
  - apply nth_error_None in E1. assert (p < length l')%nat by (apply nth_error_Some; congruence). lia.
Qed.
Lemma at_pos_In l j : j <> PAD_VALUE -> (In j l <-> exists p, at_pos 0 p j l <> 0).
Proof.
  intros N. split.
  - intros H. apply In_nth_error in H as [p Hp]. exists (Z.of_nat p). rewrite at_pos_nth, Hp, Z.eqb_refl.
    destruct (Z.eqb_spec j PAD_VALUE); [congruence|]. discriminate.
  - intros [p H]. unfold at_pos in H. destruct (p <? 0); [congruence|].
    destruct (nth_error l _) as [x|] eqn:E; [|congruence]. apply nth_error_In in E.
    destruct (Z.eqb_spec x j); [subst; auto|]. cbn in H. congruence.
Qed.
Lemma rows_of_app u P Q : rows_of u (P ++ Q) = rows_of u P ++ rows_of u Q.
Proof. apply filter_app. Qed.
Lemma rows_of_In r P : In r P <-> In r (rows_of (r_user r) P).
Proof. unfold rows_of. rewrite filter_In, Z.eqb_refl. tauto. Qed.
Lemma Forall2_lastn {X Y} (R : X -> Y -> Prop) n l l' : Forall2 R l l' -> Forall2 R (lastn n l) (lastn n l').
Proof.
  intros F. unfold lastn. rewrite (Forall2_len _ _ _ F). remember (length l' - n)%nat as k. clear Heqk.
  revert k. induction F; intros [|k]; cbn; auto.
Qed.
Lemma Forall2_inj {X Y} (R : X -> Y -> Prop) l1 l1' l2 l2' :
  (forall a b x, R a x -> R b x -> a = b) -> Forall2 R l1 l1' -> Forall2 R l2 l2' -> l1' = l2' -> l1 = l2.
Proof.
  intros H F. revert l2 l2'. induction F as [|a x l l' Hax F IH]; intros l2 l2' G E.
  - subst. inversion G. auto.
  - subst. inversion G; subst. f_equal; eauto.
Qed.
Lemma Forall2_fun {X Y} (R : X -> Y -> Prop) l1 l1' l2 l2' :
  (forall a x y, R a x -> R a y -> x = y) -> Forall2 R l1 l1' -> Forall2 R l2 l2' -> l1 = l2 -> l1' = l2'.
Proof.
  intros H F. revert l2 l2'. induction F as [|a x l l' Hax F IH]; intros l2 l2' G E.
  - subst. inversion G. auto.
  - subst. inversion G; subst. f_equal; eauto.
Qed.
Lemma same_In P0 P : (forall u, rows_of u P0 = rows_of u P) -> forall r, In r P0 <-> In r P.
Proof. intros H r. rewrite rows_of_In, H, <- rows_of_In. reflexivity. Qed.
Lemma same_map (key : row -> Z) P0 P : (forall u, rows_of u P0 = rows_of u P) -> forall k, In k (map key P0) <-> In k (map key P).
Proof. intros H k. rewrite !in_map_iff. split; intros [r [E Hr]]; exists r; split; auto; apply (same_In _ _ H); auto. Qed.
Lemma rows_of_none u P : rows_of u P = [] <-> ~ In u (map r_user P).
Proof.
  split.
  - intros H Hu. apply in_map_iff in Hu as [r [<- Hr]]. apply rows_of_In in Hr. rewrite H in Hr. destruct Hr.
  - apply rows_of_nil.
Qed.

(** Counting along an injective partial function. *)
Lemma count_by (f : Z -> option Z) A B : (forall a b x, f a = Some x -> f b = Some x -> a = b) ->
  (forall a, In a A -> exists b, f a = Some b /\ In b B) -> (forall b, In b B -> exists a, In a A /\ f a = Some b) ->
  ndistinct A = ndistinct B.
Proof.
  intros Inj H1 H2. pose (idx := fun x => match f x with Some j => j | None => -1 end).
  unfold ndistinct. rewrite <- (map_length idx (nodup Z.eq_dec A)).
  assert (N2 : NoDup (map idx (nodup Z.eq_dec A))).
  { assert (ND := NoDup_nodup Z.eq_dec A).
    assert (KK : forall x, In x (nodup Z.eq_dec A) -> exists j, f x = Some j).
    { intros x Hx. apply nodup_In in Hx. apply H1 in Hx as [b [Hb _]]. eauto. }
    induction (nodup Z.eq_dec A) as [|x l IH]; cbn; [constructor|]. inversion ND; subst. constructor.
    - intros Hi. apply in_map_iff in Hi as [y [E Hy]]. destruct (KK x (or_introl eq_refl)) as [j Hj].
      destruct (KK y (or_intror Hy)) as [j' Hj']. unfold idx in E. rewrite Hj, Hj' in E. subst.
      assert (x = y) by eauto. subst. contradiction.
    - apply IH; auto. intros y Hy. apply KK. now right. }
  apply Nat.le_antisymm; apply NoDup_incl_length; auto; try apply NoDup_nodup; intros j Hj.
  - apply in_map_iff in Hj as [x [E Hx]]. apply nodup_In in Hx. destruct (H1 x Hx) as [b [Hb Hi]]. apply nodup_In.
    unfold idx in E. rewrite Hb in E. now subst.
  - apply nodup_In in Hj. destruct (H2 j Hj) as [a [Ha E]]. apply in_map_iff. exists a. unfold idx. rewrite E.
    split; auto. now apply nodup_In.
Qed.

(** ** What a model knows after the rows [P] *)
Definition seq_inv (L : nat) (st : ti_state) (P : list row) : Prop :=
  forall u x, tu st u = Some x -> exists d l, dget x (ti_seq st) = Some d /\
    dq_items d = lastn L (repeat PAD_VALUE L ++ l) /\ Forall2 (fun i j => tit st i = Some j) (map r_item (rows_of u P)) l.
Definition sinv (L : nat) (st : ti_state) (P : list row) : Prop :=
  (exists P0, ti_inv L st P0 /\ forall u, rows_of u P0 = rows_of u P) /\ seq_inv L st P.

Lemma sinv_known_u L st P k : sinv L st P -> (tu st k <> None <-> In k (map r_user P)).
Proof. intros [[P0 [[_ [_ [K _]]] H]] _]. rewrite K. now apply same_map. Qed.
Lemma sinv_known_i L st P k : sinv L st P -> (tit st k <> None <-> In k (map r_item P)).
Proof. intros [[P0 [[_ [_ [_ K]]] H]] _]. rewrite K. now apply same_map. Qed.
Lemma sinv_wf L st P : sinv L st P -> ti_wf L st.
Proof. intros [[P0 [[W _] _]] _]. exact W. Qed.
Lemma sinv_hist L st P u j : sinv L st P ->
  (In (u, j) (ti_history st) <-> exists r, In r P /\ tu st (r_user r) = Some u /\ tit st (r_item r) = Some j).
Proof.
  intros [[P0 [[_ [F _]] H]] _]. split.
  - intros Hp. destruct (Forall2_In_r _ _ _ _ F Hp) as [r [Hr [E1 E2]]]. exists r. split; auto. now apply (same_In _ _ H).
  - intros [r [Hr [E1 E2]]]. apply (same_In _ _ H) in Hr. destruct (Forall2_In_l _ _ _ _ F Hr) as [[u' j'] [Hp [F1 F2]]].
    cbn [fst snd] in *. assert (u = u') by congruence. assert (j = j') by congruence. subst. auto.
Qed.
Lemma bij_count (m : mapping) (keys : list Z) : bij m 0 -> (forall k, f_of m k <> None <-> In k keys) ->
  n_indices m = Z.of_nat (ndistinct keys).
Proof.
  intros [Hn [FG R]] K.
  assert (Nm : n_indices m = Z.of_nat (ndistinct (zrange (Z.to_nat (n_indices m))))).
  { unfold ndistinct. rewrite nodup_fixed_point; [rewrite zrange_length; lia|].
    unfold zrange. apply FinFun.Injective_map_NoDup; [intros a b; lia|apply seq_NoDup]. }
  rewrite Nm. f_equal. symmetry. apply (count_by (f_of m)).
  - intros a b x Ha Hb. apply FG in Ha. apply FG in Hb. congruence.
  - intros a Ha. apply K in Ha. destruct (f_of m a) as [x|] eqn:E; [|congruence]. exists x. split; auto.
    apply FG in E. assert (0 <= x < 0 + n_indices m) by (apply R; eauto). unfold zrange. apply in_map_iff. exists (Z.to_nat x).
    split; [lia|]. apply in_seq. lia.
  - intros b Hb. apply zrange_nonneg in Hb. destruct (proj2 (R b)) as [k Hk]; [lia|]. apply FG in Hk. exists k.
    split; auto. apply K. congruence.
Qed.
Lemma sinv_counts L st P : sinv L st P -> nusers st = n_users_in P /\ nitems st = n_items_in P.
Proof.
  intros I. pose proof (sinv_wf _ _ _ I) as [BU [BI [EU [EI _]]]]. rewrite EU, EI. split; apply bij_count; auto.
  - intros k. apply (sinv_known_u _ _ _ k I).
  - intros k. apply (sinv_known_i _ _ _ k I).
Qed.
