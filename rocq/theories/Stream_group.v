(** Proofs about the date grouping. *)
From Coq Require Import ZArith List Bool Lia Sorting.Sorted Sorting.Permutation.
From Verif Require Import Prelude Prelude_proofs Stream_model Stream_spec.
Import ListNotations.
Open Scope Z_scope.

Lemma total_app a b : total (a ++ b) = total a + total b.
Proof. induction a; cbn; [reflexivity|]. fold (total (a0 ++ b)) (total a0). lia. Qed.

Lemma total_one x : total [x] = snd x.
Proof. cbn. lia. Qed.

Lemma snoc_split {A} (t : list A) x p q : t ++ [x] = p ++ q -> (q = [] /\ p = t ++ [x]) \/ (exists q', q = q' ++ [x] /\ t = p ++ q').
Proof.
  destruct q as [|y q] using rev_ind; intro E.
  - left. now rewrite app_nil_r in E.
  - right. rewrite app_assoc in E. apply app_inj_tail in E as [E <-]. exists q; auto.
Qed.

Lemma first_date_app t l : t <> [] -> first_date (t ++ l) = first_date t.
Proof. destruct t; [congruence|reflexivity]. Qed.

Lemma labelled_snoc t x : labelled (t ++ [x]) = map (fun y => (fst y, first_date (t ++ [x]))) t ++ [(fst x, first_date (t ++ [x]))].
Proof. unfold labelled. now rewrite map_app. Qed.

Lemma labelled_fst t : map fst (labelled t) = map fst t.
Proof. unfold labelled. rewrite map_map. reflexivity. Qed.

Lemma labelled_concat_fst bs : map fst (concat (map labelled bs)) = map fst (concat bs).
Proof. induction bs; cbn; auto. rewrite !map_app, labelled_fst, IHbs. reflexivity. Qed.

Lemma dset_fresh (m : dict Z) d g : ~ In d (map fst m) -> dset d g m = m ++ [(d, g)].
Proof.
  induction m as [|[k v] m IH]; cbn; auto. intro N. destruct (Z.eqb_spec d k); [subst; tauto|].
  f_equal. apply IH. tauto.
Qed.

Lemma dset_last (m : dict Z) d g g' : ~ In d (map fst m) -> dset d g' (m ++ [(d, g)]) = m ++ [(d, g')].
Proof.
  induction m as [|[k v] m IH]; cbn; [now rewrite Z.eqb_refl|]. intro N. destruct (Z.eqb_spec d k); [subst; tauto|].
  f_equal. apply IH. tauto.
Qed.

Lemma increasing_NoDup l : increasing l -> NoDup l.
Proof. induction 1; constructor; auto. rewrite Forall_forall in H0. intro I. specialize (H0 _ I). lia. Qed.

Lemma increasing_sort l : increasing l -> sort_stable Z.leb l = l.
Proof.
  intro H. apply sort_stable_id. induction H; constructor; auto.
  eapply Forall_impl; [|exact H0]. cbn; intros; apply Z.leb_le; lia.
Qed.

Lemma unfinished_snoc hm t x : unfinished hm t -> total (t ++ [x]) <= hm -> unfinished hm (t ++ [x]).
Proof.
  intros U T p q E Np. apply snoc_split in E as [[-> ->]|(q' & -> & ->)]; auto. now apply (U p q').
Qed.

Lemma unfinished_closed hm t x : unfinished hm t -> hm < total (t ++ [x]) -> closed hm (t ++ [x]).
Proof.
  intros U T. split; [destruct t; discriminate|]. split; auto. intros p q E Np Nq.
  apply snoc_split in E as [[-> ->]|(q' & -> & ->)]; [congruence|]. now apply (U p q').
Qed.

Lemma last_snoc {A} (l : list A) x d : last (l ++ [x]) d = x.
Proof. induction l; cbn; auto. destruct (l ++ [x]) eqn:E; auto. destruct l; discriminate. Qed.

Lemma nth_last {A} (l : list A) d : nth (length l - 1) l d = last l d.
Proof.
  destruct l as [|x l] using rev_ind; auto. rewrite last_snoc, app_length. cbn.
  rewrite app_nth2 by lia. replace (_ - _)%nat with 0%nat by lia. reflexivity.
Qed.

Lemma loop_inv hm counts : NoDup (map fst counts) -> forall l bs t ls g,
  l <> [] -> counts = concat bs ++ t ++ l -> Forall (closed hm) bs -> unfinished hm t ->
  (t <> [] -> ls = total t /\ g = first_date t) ->
  exists bs' t', counts = concat bs' ++ t' /\ Forall (closed hm) bs' /\ unfinished hm t' /\
    group_loop hm (map fst counts) (length (concat bs ++ t)) l (match t with [] => true | _ => false end) ls g
      (concat (map labelled bs) ++ labelled t) = date_labels bs' t'.
Proof.
  intro ND. induction l as [|[d v] l IH]; intros bs t ls g Nl E FB U Hls; [congruence|].
  cbn [group_loop].
  set (st := if match t with [] => true | _ => false end then _ else _).
  assert (Est : st = (hm <? total (t ++ [(d, v)]), total (t ++ [(d, v)]), first_date (t ++ [(d, v)]))).
  { unfold st. destruct t as [|y t].
    - cbn. rewrite Z.add_0_r. reflexivity.
    - destruct Hls as [-> ->]; [discriminate|]. rewrite total_app, total_one, first_date_app by discriminate. reflexivity. }
  rewrite Est. clear st Est.
  set (t1 := t ++ [(d, v)]) in *.
  assert (Fr : ~ In d (map fst (concat (map labelled bs) ++ labelled t))).
  { rewrite map_app, labelled_concat_fst, labelled_fst. intro I. rewrite E, !map_app in ND. cbn in ND.
    rewrite app_assoc in ND. apply NoDup_remove_2 in ND. apply ND. apply in_or_app. left. exact I. }
  rewrite (dset_fresh _ d (first_date t1) Fr).
  assert (Lab : (concat (map labelled bs) ++ labelled t) ++ [(d, first_date t1)] = concat (map labelled bs) ++ labelled t1).
  { rewrite <- app_assoc. f_equal. unfold t1. rewrite labelled_snoc. f_equal. unfold labelled.
    destruct t; auto. }
  assert (Len : (length (map fst counts) = length (concat bs ++ t) + 1 + length l)%nat).
  { rewrite map_length, E, !app_length. cbn. lia. }
  assert (Nt1 : t1 <> []) by (unfold t1; destruct t; discriminate).
  destruct l as [|z l].
  - (* last date *)
    cbn [length] in Len. rewrite Len. replace (Nat.eqb _ _) with true by (symmetry; apply Nat.eqb_eq; lia).
    cbn [andb group_loop].
    destruct (Z.leb_spec (total t1) hm) as [Le|Gt].
    + exists bs, t1. split; [rewrite E; unfold t1; now rewrite ?app_nil_r|]. split; auto.
      split; [now apply unfinished_snoc|]. rewrite dset_last by auto.
      unfold date_labels. rewrite <- app_assoc. f_equal.
      destruct t1 as [|y t1'] eqn:Et1; [congruence|]. rewrite <- Et1. unfold t1.
      rewrite removelast_last. unfold last_date. rewrite last_snoc. cbn [fst].
      f_equal.
      { unfold labelled. destruct t; auto. }
      do 2 f_equal.
      assert (Em : map fst counts = map fst (concat bs ++ t) ++ [d]).
      { rewrite E, !map_app. cbn. now rewrite app_assoc. }
      rewrite Em. destruct (Nat.eqb_spec (length (concat bs ++ t)) 0) as [Z0|Nz].
      * destruct (concat bs ++ t); [|discriminate]. cbn. reflexivity.
      * rewrite app_nth1 by (rewrite map_length; lia).
        rewrite <- (map_length fst). rewrite nth_last.
        destruct (map fst (concat bs ++ t)) eqn:El; [|].
        { rewrite <- (map_length fst), El in Nz. cbn in Nz. lia. }
        clear. revert z. induction l; intro z; cbn; auto. apply (IHl a).
    + exists (bs ++ [t1]), []. split; [rewrite E, concat_app; cbn; unfold t1; now rewrite !app_nil_r|].
      split; [apply Forall_app; split; auto; constructor; [now apply unfinished_closed | constructor]|].
      split; [intros [|] q H; [congruence|discriminate]|].
      rewrite Lab. unfold date_labels. rewrite map_app, concat_app. cbn. now rewrite !app_nil_r.
  - replace (Nat.eqb _ _) with false by (symmetry; apply Nat.eqb_neq; cbn [length] in Len; lia).
    cbn [andb]. rewrite Lab.
    destruct (Z.ltb_spec hm (total t1)) as [Gt|Le].
    + assert (E1 : counts = concat (bs ++ [t1]) ++ [] ++ z :: l).
      { rewrite E, concat_app. cbn. unfold t1. rewrite app_nil_r. rewrite <- !app_assoc. reflexivity. }
      destruct (IH (bs ++ [t1]) [] (total t1) (first_date t1)) as (bs' & t' & C & F' & U' & R); auto; try congruence.
      { apply Forall_app; split; auto; constructor; [now apply unfinished_closed | constructor]. }
      { intros [|] q H; [congruence|discriminate]. }
      exists bs', t'. split; auto. split; auto. split; auto. rewrite <- R. f_equal.
      * rewrite app_nil_r, concat_app, !app_length. cbn. unfold t1. rewrite app_nil_r, app_length. cbn. lia.
      * rewrite map_app, concat_app. cbn. now rewrite !app_nil_r.
    + assert (E1 : counts = concat bs ++ t1 ++ z :: l).
      { rewrite E. unfold t1. rewrite <- !app_assoc. reflexivity. }
      destruct (IH bs t1 (total t1) (first_date t1)) as (bs' & t' & C & F' & U' & R); auto; try congruence.
      { now apply unfinished_snoc. }
      exists bs', t'. split; auto. split; auto. split; auto. rewrite <- R. f_equal.
      * unfold t1. rewrite !app_length. cbn. lia.
      * destruct t1; congruence.
Qed.

Lemma grouping_blocks_main counts hm : increasing (map fst counts) ->
  exists blocks tail, counts = concat blocks ++ tail /\ Forall (closed hm) blocks /\ unfinished hm tail /\
    get_date_to_group_mapping counts hm = date_labels blocks tail.
Proof.
  intro I. unfold get_date_to_group_mapping. rewrite increasing_sort by auto.
  destruct counts as [|x counts].
  - exists [], []. split; auto. split; [constructor|]. split; [intros [|] q H; [congruence|discriminate]|]. reflexivity.
  - destruct (loop_inv hm (x :: counts) (increasing_NoDup _ I) (x :: counts) [] [] 0 0) as (bs & t & E & F & U & R);
      auto; try discriminate; try congruence.
    { intros [|] q H; [congruence|discriminate]. }
    exists bs, t. split; auto.
Qed.

(** Order facts about labels. *)
Lemma date_labels_fst bs t : map fst (date_labels bs t) = map fst (concat bs ++ t).
Proof.
  unfold date_labels. rewrite !(map_app fst (concat _)), labelled_concat_fst. f_equal.
  destruct t as [|x t] using rev_ind; [reflexivity|].
  destruct (t ++ [x]) eqn:E; [destruct t; discriminate|]. rewrite <- E.
  rewrite removelast_last. unfold last_date. rewrite last_snoc, !map_app, map_map. reflexivity.
Qed.

Definition ordered (L : list (Z * Z)) : Prop :=
  StronglySorted (fun p q => fst p < fst q /\ snd p <= snd q) L /\
  (forall p, In p L -> snd p <= fst p /\ In (snd p) (map fst L)).

Lemma StronglySorted_app {A} (R : A -> A -> Prop) l1 l2 :
  StronglySorted R l1 -> StronglySorted R l2 -> (forall x y, In x l1 -> In y l2 -> R x y) -> StronglySorted R (l1 ++ l2).
Proof.
  intros S1 S2 H. induction S1; cbn; auto. constructor.
  - apply IHS1. intros; apply H; auto; now right.
  - apply Forall_app; split; auto. apply Forall_forall. intros y I. apply H; auto. now left.
Qed.

Lemma StronglySorted_app_inv {A} (R : A -> A -> Prop) l1 l2 :
  StronglySorted R (l1 ++ l2) -> StronglySorted R l1 /\ StronglySorted R l2 /\ (forall x y, In x l1 -> In y l2 -> R x y).
Proof.
  induction l1; cbn; intro S; [split; [constructor|split; auto; intros ? ? []]|].
  inversion S; subst. apply IHl1 in H1 as (S1 & S2 & H). apply Forall_app in H2 as [F1 F2].
  split; [constructor; auto|]. split; auto. intros x y [<-|I] J; auto. rewrite Forall_forall in F2; auto.
Qed.

Lemma ordered_app L1 L2 : ordered L1 -> ordered L2 ->
  (forall x y, In x (map fst L1) -> In y (map fst L2) -> x < y) -> ordered (L1 ++ L2).
Proof.
  intros [S1 P1] [S2 P2] H. split.
  - apply StronglySorted_app; auto. intros x y Ix Iy. split; [apply H; now apply in_map|].
    destruct (P1 x Ix) as [a _]. destruct (P2 y Iy) as [_ b].
    assert (fst x < snd y) by (apply H; auto; now apply in_map). lia.
  - intros p I. rewrite map_app, in_app_iff. apply in_app_iff in I as [I|I]; [apply P1 in I | apply P2 in I]; tauto.
Qed.

Lemma ordered_labelled b : increasing (map fst b) -> ordered (labelled b).
Proof.
  intro I. split.
  - unfold labelled. generalize (first_date b). intro g. induction b as [|x b IH]; cbn; [constructor|].
    inversion I; subst. constructor; auto. apply Forall_forall. intros p J. apply in_map_iff in J as (y & <- & J).
    cbn. split; [|lia]. rewrite Forall_forall in H2. apply H2. now apply in_map.
  - intros p J. unfold labelled in J. apply in_map_iff in J as (y & <- & J). cbn. rewrite labelled_fst.
    destruct b as [|x b]; [destruct J|]. unfold first_date; cbn. split; [|auto].
    destruct J as [<-|J]; [lia|]. inversion I; subst. rewrite Forall_forall in H2.
    specialize (H2 (fst y) (in_map fst _ _ J)). lia.
Qed.

Lemma ordered_blocks bs : increasing (map fst (concat bs)) -> ordered (concat (map labelled bs)).
Proof.
  induction bs as [|b bs IH]; cbn; intro I; [split; [constructor|intros p []]|].
  rewrite map_app in I. apply StronglySorted_app_inv in I as (I1 & I2 & H).
  apply ordered_app; [now apply ordered_labelled | now apply IH |].
  now rewrite labelled_fst, labelled_concat_fst.
Qed.

Lemma last_In {A} (l : list A) d : l <> [] -> In (last l d) l.
Proof. destruct l as [|x l] using rev_ind; [congruence|]. rewrite last_snoc. intros _. apply in_or_app; cbn; auto. Qed.

Lemma increasing_last l x d : increasing l -> In x l -> x <= last l d.
Proof.
  destruct l as [|y l] using rev_ind; [intros _ []|]. clear IHl. rewrite last_snoc. intros I J.
  apply StronglySorted_app_inv in I as (_ & _ & H). apply in_app_iff in J as [J|[->|[]]]; [|lia].
  specialize (H x y J (or_introl eq_refl)). lia.
Qed.

Lemma ordered_labels bs t : increasing (map fst (concat bs ++ t)) -> ordered (date_labels bs t).
Proof.
  intro I. destruct t as [|x t] using rev_ind; [|clear IHt].
  - unfold date_labels. rewrite !app_nil_r in *. now apply ordered_blocks.
  - unfold date_labels. destruct (t ++ [x]) eqn:E; [destruct t; discriminate|]. rewrite <- E in *. clear E l p.
    rewrite removelast_last. unfold last_date. rewrite last_snoc.
    rewrite app_assoc. set (L := concat (map labelled bs) ++ _).
    rewrite app_assoc, map_app in I. cbn in I. apply StronglySorted_app_inv in I as (I1 & _ & H).
    assert (EL : map fst L = map fst (concat bs ++ t)).
    { unfold L. rewrite !map_app, labelled_concat_fst, map_map. reflexivity. }
    assert (OL : ordered L).
    { unfold L. rewrite map_app in I1. apply StronglySorted_app_inv in I1 as (J1 & J2 & J3).
      assert (EL2 : map (fun x0 => (fst x0, first_date (t ++ [x]))) t = labelled t).
      { unfold labelled. destruct t; auto. }
      rewrite EL2. apply ordered_app; [now apply ordered_blocks | now apply ordered_labelled |].
      now rewrite labelled_fst, labelled_concat_fst. }
    destruct OL as [S P]. set (g := last (map fst (concat bs ++ t)) (fst x)).
    assert (G1 : forall p, In p L -> snd p <= g /\ fst p < fst x).
    { intros p J. assert (Ip : In (fst p) (map fst (concat bs ++ t))) by (rewrite <- EL; now apply in_map).
      destruct (P p J) as [Q _]. pose proof (increasing_last _ _ (fst x) I1 Ip). split; [unfold g; lia|].
      apply H; auto. now left. }
    assert (G2 : g <= fst x /\ In g (map fst (L ++ [(fst x, g)]))).
    { rewrite map_app, EL. unfold g. destruct (map fst (concat bs ++ t)) eqn:E; [cbn; split; [lia|auto]|].
      rewrite <- E in *. assert (Hl : In (last (map fst (concat bs ++ t)) (fst x)) (map fst (concat bs ++ t))).
      { apply last_In. rewrite E. discriminate. }
      split; [|apply in_or_app; left; exact Hl]. specialize (H _ (fst x) Hl (or_introl eq_refl)). lia. }
    split.
    + apply StronglySorted_app; auto; [repeat constructor|]. intros p q Ip [<-|[]]. cbn. specialize (G1 p Ip). lia.
    + intros p J. apply in_app_iff in J as [J|[<-|[]]]; [|exact G2].
      destruct (P p J) as [a b]. split; auto. rewrite map_app. apply in_or_app; now left.
Qed.

Lemma grouping_order_main counts hm : increasing (map fst counts) ->
  let m := get_date_to_group_mapping counts hm in
  map fst m = map fst counts /\
  (forall d g, In (d, g) m -> g <= d /\ In g (map fst counts)) /\
  (forall d g d' g', In (d, g) m -> In (d', g') m -> d <= d' -> g <= g').
Proof.
  intros I m. destruct (grouping_blocks_main counts hm I) as (bs & t & E & _ & _ & R).
  fold m in R. rewrite R. rewrite E in I. pose proof (ordered_labels bs t I) as [S P].
  split; [rewrite date_labels_fst; congruence|]. split.
  - intros d g J. apply P in J. cbn in J. rewrite date_labels_fst, <- E in J. exact J.
  - revert S. generalize (date_labels bs t) as L. clear. induction L as [|p L IH]; [intros _ ? ? ? ? []|].
    intros S d g d' g' J J' Le. inversion S; subst. rewrite Forall_forall in H2.
    destruct J as [->|J], J' as [E'|J'].
    + injection E'; lia.
    + apply (H2 _ J').
    + subst p. specialize (H2 _ J). cbn in H2. lia.
    + eapply IH; eauto.
Qed.

(** Sizes of the groups. *)
Lemma members_app c1 c2 l1 l2 g : length c1 = length l1 ->
  members (c1 ++ c2) (l1 ++ l2) g = members c1 l1 g ++ members c2 l2 g.
Proof.
  intro L. unfold members. revert l1 L; induction c1; intros [|y l1] L; try discriminate; auto.
  cbn in *. injection L as L. specialize (IHc1 l1 L). destruct (snd y =? g); cbn; congruence.
Qed.

Lemma members_const b k g : members b (map (fun x => (fst x, k)) b) g = if k =? g then b else [].
Proof. unfold members. induction b; cbn; [now destruct (k =? g)|]. destruct (k =? g); cbn; congruence. Qed.

Lemma members_blocks_none bs g : ~ In g (map fst (concat bs)) -> Forall (fun b => b <> []) bs ->
  members (concat bs) (concat (map labelled bs)) g = [].
Proof.
  intros N F. induction bs as [|b bs IH]; auto. cbn [map concat] in *. inversion F; subst. rewrite map_app, in_app_iff in N.
  rewrite members_app by (unfold labelled; now rewrite map_length). rewrite IH by tauto.
  unfold labelled. rewrite members_const. destruct (Z.eqb_spec (first_date b) g); auto.
  exfalso. apply N. left. subst. destruct b; [congruence|]. now left.
Qed.

Lemma labelled_concat_length bs : length (concat bs) = length (concat (map labelled bs)).
Proof. rewrite <- (map_length fst), <- (labelled_concat_fst bs). apply map_length. Qed.

Lemma members_blocks_one bs1 b bs2 : NoDup (map fst (concat (bs1 ++ b :: bs2))) ->
  Forall (fun b => b <> []) (bs1 ++ b :: bs2) ->
  members (concat (bs1 ++ b :: bs2)) (concat (map labelled (bs1 ++ b :: bs2))) (first_date b) = b.
Proof.
  intros N F. apply Forall_app in F as [F1 F2]. inversion F2; subst.
  rewrite map_app, !concat_app in *. cbn [map concat] in *. rewrite !map_app in N.
  assert (I : In (first_date b) (map fst b)) by (destruct b; [congruence|now left]).
  apply NoDup_app_inv in N as (_ & N2 & N3). apply NoDup_app_inv in N2 as (_ & _ & N4).
  rewrite members_app by apply labelled_concat_length.
  rewrite members_app by (unfold labelled; now rewrite map_length).
  rewrite (members_blocks_none bs1), (members_blocks_none bs2); auto.
  - unfold labelled. rewrite members_const, Z.eqb_refl, app_nil_r. reflexivity.
  - intro J. apply (N3 _ J). apply in_or_app; now left.
Qed.

Lemma In_blocks bs d g : In (d, g) (concat (map labelled bs)) ->
  exists bs1 b bs2, bs = bs1 ++ b :: bs2 /\ g = first_date b.
Proof.
  intro I. apply in_concat in I as (l & Il & I). apply in_map_iff in Il as (b & <- & Ib).
  apply in_split in Ib as (bs1 & bs2 & ->). exists bs1, b, bs2. split; auto.
  unfold labelled in I. apply in_map_iff in I as (x & E & _). now injection E.
Qed.

Lemma labels_snoc bs t x :
  date_labels bs (t ++ [x]) =
  concat (map labelled bs) ++ map (fun y => (fst y, first_date (t ++ [x]))) t ++
  [(fst x, last (map fst (concat bs ++ t)) (fst x))].
Proof.
  unfold date_labels. destruct (t ++ [x]) eqn:E; [destruct t; discriminate|]. rewrite <- E.
  rewrite removelast_last. unfold last_date. rewrite last_snoc. reflexivity.
Qed.

Lemma members_snoc bs t x g :
  members (concat bs ++ t ++ [x]) (date_labels bs (t ++ [x])) g =
  members (concat bs) (concat (map labelled bs)) g ++
  (if first_date (t ++ [x]) =? g then t else []) ++
  (if last (map fst (concat bs ++ t)) (fst x) =? g then [x] else []).
Proof.
  rewrite labels_snoc. rewrite members_app by apply labelled_concat_length.
  rewrite members_app by now rewrite map_length. rewrite members_const.
  do 2 f_equal. unfold members. cbn. now destruct (_ =? g).
Qed.

Lemma undersized_main hm bs tail :
  increasing (map fst (concat bs ++ tail)) -> (forall x, In x (concat bs ++ tail) -> 0 <= snd x) ->
  Forall (closed hm) bs -> unfinished hm tail ->
  let L := date_labels bs tail in
  (exists d g, In (d, g) L /\ total (members (concat bs ++ tail) L g) <= hm) <->
  tail <> [] /\ ~ (exists x y bs', tail = [x] /\ bs = bs' ++ [[y]]).
Proof.
  intros I Nn FB U L. pose proof (increasing_NoDup _ I) as ND.
  assert (FB' : Forall (fun b : list (Z * Z) => b <> []) bs).
  { eapply Forall_impl; [|exact FB]. intros b [H _]; exact H. }
  assert (NDb : NoDup (map fst (concat bs))).
  { rewrite map_app in ND. now apply NoDup_app_inv in ND. }
  assert (Big : forall bs1 b bs2, bs = bs1 ++ b :: bs2 ->
     members (concat bs) (concat (map labelled bs)) (first_date b) = b /\ hm < total b).
  { intros bs1 b bs2 ->. split; [apply members_blocks_one; auto|].
    apply Forall_app in FB as [_ FB]. inversion FB; subst. destruct H1 as (_ & H & _); exact H. }
  destruct tail as [|x t _] using rev_ind.
  - split; [|intros [H _]; congruence]. intros (d & g & J & T). exfalso. unfold L, date_labels in *.
    rewrite !app_nil_r in *. destruct (In_blocks _ _ _ J) as (bs1 & b & bs2 & E & ->).
    destruct (Big _ _ _ E) as [M H]. rewrite M in T. lia.
  - unfold L. split.
    + intros (d & g & J & T). split; [destruct t; discriminate|]. intros (x' & y & bs' & E & ->).
      destruct t as [|z [|]]; try discriminate. injection E as ->.
      cbn [app] in *. pose proof (members_snoc (bs' ++ [[y]]) [] x' g) as M. cbn [app] in M. rewrite M in T. clear M.
      pose proof (labels_snoc (bs' ++ [[y]]) [] x') as ML. cbn [app map] in ML. rewrite ML in J. clear ML.
      rewrite app_nil_r in *. assert (Last : last (map fst (concat (bs' ++ [[y]]))) (fst x') = fst y).
      { rewrite concat_app, map_app. cbn. now rewrite last_snoc. }
      rewrite Last in *. destruct (Big bs' [y] [] eq_refl) as [My Hy].
      assert (Nx : 0 <= snd x') by (apply Nn; apply in_or_app; right; now left).
      assert (Gy : g = fst y \/ exists bs1 b bs2, bs' ++ [[y]] = bs1 ++ b :: bs2 /\ g = first_date b).
      { apply in_app_iff in J as [J|[J|[]]]; [right; now apply (In_blocks _ d) | left; now injection J]. }
      destruct Gy as [->|(bs1 & b & bs2 & E & ->)].
      * unfold first_date in My; cbn in My. rewrite My in T. rewrite Z.eqb_refl in T.
        rewrite !total_app in T. destruct (_ =? _) in T; cbn in T, Hy; lia.
      * destruct (Big _ _ _ E) as [M H]. rewrite M in T. rewrite !total_app in T.
        destruct (first_date [x'] =? first_date b), (fst y =? first_date b); cbn in T; lia.
    + intros [_ Hs]. assert (Ut := U (t ++ [x]) [] (eq_sym (app_nil_r _))).
      assert (Tt : total (t ++ [x]) <= hm) by (apply Ut; destruct t; discriminate). clear Ut.
      assert (Nb : forall k, In k (map fst (t ++ [x])) -> members (concat bs) (concat (map labelled bs)) k = []).
      { intros k J. apply members_blocks_none; auto. intro J'. rewrite map_app in ND.
        apply NoDup_app_inv in ND as (_ & _ & ND). exact (ND k J' J). }
      destruct t as [|y [|z t]].
      * (* the tail is the last date alone *)
        exists (fst x), (last (map fst (concat bs)) (fst x)). rewrite labels_snoc, members_snoc. cbn [map app].
        rewrite app_nil_r. split; [apply in_or_app; right; now left|]. cbn [app]. rewrite Z.eqb_refl.
        replace (members (concat bs) (concat (map labelled bs)) (last (map fst (concat bs)) (fst x))) with (@nil (Z * Z)).
        { cbn in Tt |- *. destruct (_ =? _); cbn; lia. }
        destruct bs as [|b bs' _] using rev_ind; [reflexivity|]. symmetry.
        apply Forall_app in FB' as [F1 F2]. inversion F2; subst.
        destruct b as [|y b _] using rev_ind; [congruence|].
        replace (last (map fst (concat (bs' ++ [b ++ [y]]))) (fst x)) with (fst y).
        2: { rewrite concat_app, map_app. cbn. rewrite app_nil_r, map_app, app_assoc. cbn. now rewrite last_snoc. }
        rewrite map_app, !concat_app. cbn [map concat]. rewrite !app_nil_r. rewrite concat_app in NDb. cbn in NDb. rewrite app_nil_r, map_app in NDb.
        apply NoDup_app_inv in NDb as (_ & ND1 & ND2).
        rewrite members_app by apply labelled_concat_length.
        rewrite members_blocks_none; auto.
        2: { intro J. apply (ND2 _ J). rewrite map_app. apply in_or_app; right; now left. }
        cbn [app]. unfold labelled. rewrite members_const. destruct (Z.eqb_spec (first_date (b ++ [y])) (fst y)) as [Ef|]; auto.
        exfalso. destruct b as [|y' b].
        { apply Hs. exists x, y, bs'. split; auto. }
        unfold first_date in Ef; cbn in Ef. rewrite map_app in ND1. cbn in ND1. inversion ND1; subst. apply H3. rewrite Ef.
        apply in_or_app; right; now left.
      * (* two dates *)
        exists (fst y), (fst y). cbn [app]. pose proof (members_snoc bs [y] x (fst y)) as M. cbn [app] in M. rewrite M.
        pose proof (labels_snoc bs [y] x) as ML. cbn [app map] in ML. rewrite ML.
        split; [apply in_or_app; right; left; reflexivity|].
        rewrite Nb by (now left). rewrite map_app. cbn [map]. rewrite last_snoc.
        unfold first_date. cbn [hd fst app]. rewrite !Z.eqb_refl. exact Tt.
      * exists (fst y), (fst y). rewrite members_snoc.
        split; [rewrite labels_snoc; apply in_or_app; right; left; reflexivity|].
        rewrite Nb by (now left).
        assert (Df : last (map fst (concat bs ++ y :: z :: t)) (fst x) <> fst y).
        { rewrite map_app. cbn [map]. rewrite !map_app in ND. cbn [map app] in ND.
          apply NoDup_app_inv in ND as (_ & ND & _). inversion ND; subst. intro E. apply H1.
          assert (El : last (map fst (concat bs) ++ fst y :: fst z :: map fst t) (fst x) = last (fst z :: map fst t) (fst x)).
          { clear. induction (map fst (concat bs)); [reflexivity|]. cbn [app].
            rewrite <- IHl. destruct (l ++ _) eqn:E; [destruct l; discriminate|]. reflexivity. }
          rewrite El in E. rewrite <- E.
          assert (J := last_In (fst z :: map fst t) (fst x) ltac:(discriminate)).
          destruct J as [J|J]; [left; exact J|]. right. apply in_or_app; now left. }
        apply Z.eqb_neq in Df. rewrite Df. unfold first_date. cbn [hd app]. rewrite Z.eqb_refl. rewrite app_nil_r.
        apply (U (y :: z :: t) [x]); [reflexivity|discriminate].
Qed.

Lemma grouping_main counts hm : increasing (map fst counts) -> (forall x, In x counts -> 0 <= snd x) ->
  exists blocks tail, counts = concat blocks ++ tail /\ Forall (closed hm) blocks /\ unfinished hm tail /\
    get_date_to_group_mapping counts hm = date_labels blocks tail /\
    ((exists d g, In (d, g) (date_labels blocks tail) /\ total (members counts (date_labels blocks tail) g) <= hm) <->
     tail <> [] /\ ~ (exists x y blocks', tail = [x] /\ blocks = blocks' ++ [[y]])).
Proof.
  intros I Nn. destruct (grouping_blocks_main counts hm I) as (bs & t & E & F & U & R).
  exists bs, t. split; auto. split; auto. split; auto. split; auto.
  subst counts. now apply undersized_main.
Qed.
