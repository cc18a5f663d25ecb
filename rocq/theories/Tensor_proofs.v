(** Buffers, cells, loops of additions. *)
From Coq Require Import ZArith List Bool Lia Permutation Ring ArithRing.
From Verif Require Import Prelude Prelude_proofs Tensor_model Tensor_spec.
Import ListNotations.
Open Scope nat_scope.

Lemma coord_eta (c : coord) : c = (c0 c, c1 c, c2 c).
Proof. destruct c as [[a b] d]. reflexivity. Qed.

Lemma coord_ext (c d : coord) : c0 c = c0 d -> c1 c = c1 d -> c2 c = c2 d -> c = d.
Proof. intros. rewrite (coord_eta c), (coord_eta d). congruence. Qed.

Lemma coord_eqb_eq c d : coord_eqb c d = true <-> c = d.
Proof.
  unfold coord_eqb. rewrite !andb_true_iff, !Nat.eqb_eq. split.
  - intros [[? ?] ?]. apply coord_ext; auto.
  - intros ->; auto.
Qed.

Lemma coord_eqb_refl c : coord_eqb c c = true.
Proof. apply coord_eqb_eq. reflexivity. Qed.

Lemma coord_eqb_neq c d : coord_eqb c d = false <-> c <> d.
Proof.
  destruct (coord_eqb c d) eqn:E; split; intros; try discriminate; auto.
  - apply coord_eqb_eq in E. contradiction.
  - intros ->. rewrite coord_eqb_refl in E. discriminate.
Qed.

Lemma in_shape_iff shape c : in_shape shape c = true <-> in_range shape c.
Proof. unfold in_shape, in_range. rewrite !andb_true_iff, !Nat.ltb_lt. tauto. Qed.

Lemma seq_shift_map a n : seq a n = map (fun j => a + j) (seq 0 n).
Proof.
  revert a. induction n as [|n IH]; intros a; [reflexivity|]. cbn [seq map].
  rewrite Nat.add_0_r. f_equal. rewrite IH, (IH 1), map_map. apply map_ext. intros; lia.
Qed.

Lemma flat_map_blocks n m :
  flat_map (fun i => map (fun j => i * m + j) (seq 0 m)) (seq 0 n) = seq 0 (n * m).
Proof.
  induction n as [|n IH]; [reflexivity|].
  rewrite seq_S, flat_map_app, IH. cbn [flat_map]. rewrite app_nil_r.
  cbn [Nat.add]. rewrite <- seq_shift_map.
  replace (S n * m) with (n * m + m) by lia. rewrite seq_app. reflexivity.
Qed.

Lemma map_flat_map {X Y W} (g : Y -> W) (f : X -> list Y) l :
  map g (flat_map f l) = flat_map (fun x => map g (f x)) l.
Proof. induction l; simpl; [auto|]. rewrite map_app, IHl. reflexivity. Qed.

Lemma flat_map_ext_in {X Y} (f g : X -> list Y) l :
  (forall x, In x l -> f x = g x) -> flat_map f l = flat_map g l.
Proof.
  induction l as [|x l IH]; intros H; [reflexivity|]. cbn [flat_map].
  rewrite (H x (or_introl eq_refl)), IH; auto. intros; apply H; right; auto.
Qed.

Lemma flat_map_flat_map {X Y W} (f : X -> list Y) (g : Y -> list W) l :
  flat_map g (flat_map f l) = flat_map (fun x => flat_map g (f x)) l.
Proof. induction l; simpl; [auto|]. rewrite flat_map_app, IHl. reflexivity. Qed.

Lemma filter_flat_map {X Y} (p : Y -> bool) (f : X -> list Y) l :
  filter p (flat_map f l) = flat_map (fun x => filter p (f x)) l.
Proof. induction l; simpl; [auto|]. rewrite filter_app, IHl. reflexivity. Qed.

Lemma flat_map_map {X Y W} (f : X -> Y) (g : Y -> list W) l :
  flat_map g (map f l) = flat_map (fun x => g (f x)) l.
Proof. induction l; simpl; congruence. Qed.

Lemma flat_map_singleton {X Y} (f : X -> Y) l : flat_map (fun x => [f x]) l = map f l.
Proof. induction l; simpl; congruence. Qed.

Lemma cells_offset shape : map (offset shape) (cells shape) = seq 0 (size shape).
Proof.
  unfold cells, size, offset. destruct shape as [[n0 n1] n2]. cbn [c0 c1 c2 fst snd].
  rewrite <- Nat.mul_assoc, <- (flat_map_blocks n0 (n1 * n2)), map_flat_map.
  apply flat_map_ext_in. intros i _. rewrite map_flat_map.
  rewrite <- (flat_map_blocks n1 n2), map_flat_map.
  apply flat_map_ext_in. intros j _. rewrite !map_map. apply map_ext. intros k. cbn [c0 c1 c2 fst snd]. ring.
Qed.

Lemma cells_length shape : length (cells shape) = size shape.
Proof. rewrite <- (map_length (offset shape)), cells_offset, seq_length. reflexivity. Qed.

Lemma cells_In shape c : In c (cells shape) <-> in_range shape c.
Proof.
  unfold cells, in_range. destruct c as [[i j] k]. cbn [c0 c1 c2 fst snd]. split.
  - intros H. apply in_flat_map in H as [i' [Hi H]]. apply in_flat_map in H as [j' [Hj H]].
    apply in_map_iff in H as [k' [E Hk]]. injection E as -> -> ->.
    apply in_seq in Hi, Hj, Hk. lia.
  - intros [Hi [Hj Hk]]. apply in_flat_map. exists i. split; [apply in_seq; lia|].
    apply in_flat_map. exists j. split; [apply in_seq; lia|].
    apply in_map_iff. exists k. split; [reflexivity|apply in_seq; lia].
Qed.

Lemma offset_lt shape c : in_range shape c -> offset shape c < size shape.
Proof.
  intros H. apply cells_In in H. apply (in_map (offset shape)) in H.
  rewrite cells_offset in H. apply in_seq in H. lia.
Qed.

Lemma NoDup_map_inj {X Y} (f : X -> Y) l x y :
  NoDup (map f l) -> In x l -> In y l -> f x = f y -> x = y.
Proof.
  induction l as [|z l IH]; intros N Hx Hy E; [destruct Hx|].
  cbn [map] in N. inversion N as [|? ? N1 N2]; subst.
  destruct Hx as [<-|Hx], Hy as [<-|Hy]; auto.
  - exfalso. apply N1. rewrite E. apply in_map. auto.
  - exfalso. apply N1. rewrite <- E. apply in_map. auto.
Qed.

Lemma offset_inj shape c d : in_range shape c -> in_range shape d ->
  offset shape c = offset shape d -> c = d.
Proof.
  intros Hc Hd. apply cells_In in Hc, Hd.
  apply NoDup_map_inj with (l := cells shape); auto. rewrite cells_offset. apply seq_NoDup.
Qed.

Lemma cells_nth_offset shape c d : in_range shape c -> nth (offset shape c) (cells shape) d = c.
Proof.
  intros H. pose proof (offset_lt _ _ H) as L. rewrite <- cells_length in L.
  pose proof (nth_In (cells shape) d L) as HI.
  apply (NoDup_map_inj (offset shape) (cells shape)); auto.
  - rewrite cells_offset. apply seq_NoDup.
  - apply cells_In. auto.
  - rewrite <- (map_nth (offset shape)), cells_offset.
    rewrite cells_length in L. rewrite (nth_indep _ _ 0) by (rewrite seq_length; auto).
    rewrite seq_nth; auto.
Qed.

Lemma offset_surj shape n : n < size shape -> exists c, in_range shape c /\ offset shape c = n.
Proof.
  intros H. assert (HI : In n (map (offset shape) (cells shape))) by (rewrite cells_offset; apply in_seq; lia).
  apply in_map_iff in HI as [c [E Hc]]. exists c. split; auto. apply cells_In. auto.
Qed.

Section Buf.
  Context {A : Type} (zero : A).
  Notation tget := (tget zero).
  Notation mget := (mget zero).

  Lemma ten_ext (t t' : ten A) : twf t -> twf t' -> tshape t = tshape t' ->
    (forall c, in_range (tshape t) c -> tget t c = tget t' c) -> t = t'.
  Proof.
    intros W W' S E. destruct t as [s d], t' as [s' d']. cbn [tshape] in *. subst s'. f_equal.
    apply nth_ext with (d := zero) (d' := zero); [unfold twf in *; cbn [tshape tdat] in *; congruence|].
    intros n Hn. unfold twf in W. cbn [tshape tdat] in W. rewrite W in Hn.
    destruct (offset_surj s n Hn) as [c [Hc <-]]. apply (E c Hc).
  Qed.

  Lemma nth_set_nth i j (v d : A) l :
    nth j (set_nth i v l) d = if (i =? j) && (i <? length l) then v else nth j l d.
  Proof.
    revert i j. induction l as [|x l IH]; intros [|i] [|j]; cbn [set_nth nth length]; auto.
    - destruct ((S i =? S j) && (S i <? 0)) eqn:E; auto.
      apply andb_true_iff in E as [_ E]. apply Nat.ltb_lt in E. lia.
    - rewrite IH. reflexivity.
  Qed.

  Lemma tset_wf (t : ten A) c v : twf t -> twf (tset t c v).
  Proof. unfold twf. cbn [tset tshape tdat]. rewrite set_nth_length. auto. Qed.

  Lemma tget_tset (t : ten A) c d v : twf t -> in_range (tshape t) c -> in_range (tshape t) d ->
    tget (tset t c v) d = if coord_eqb c d then v else tget t d.
  Proof.
    intros W Hc Hd. unfold Tensor_model.tget. cbn [tset tshape tdat]. rewrite nth_set_nth.
    pose proof (offset_lt _ _ Hc) as L. unfold twf in W. change (length (tdat t) = size (tshape t)) in W. rewrite W.
    replace (offset (tshape t) c <? size (tshape t)) with true by (symmetry; apply Nat.ltb_lt; auto).
    rewrite andb_true_r. destruct (coord_eqb c d) eqn:E.
    - apply coord_eqb_eq in E as ->. rewrite Nat.eqb_refl. reflexivity.
    - apply coord_eqb_neq in E. destruct (offset (tshape t) c =? offset (tshape t) d) eqn:E2; auto.
      apply Nat.eqb_eq, offset_inj in E2; auto. contradiction.
  Qed.

  Lemma zeros3_wf shape : twf (zeros3 zero shape).
  Proof. unfold twf, zeros3. cbn [tdat tshape]. rewrite repeat_length. reflexivity. Qed.

  Lemma tget_zeros3 shape c : tget (zeros3 zero shape) c = zero.
  Proof.
    unfold Tensor_model.tget, zeros3. cbn [tdat tshape]. apply nth_repeat.
  Qed.

  (** Arrays given cell by cell. *)
  Lemma tget_map_cells shape (f : coord -> A) c : in_range shape c ->
    tget (mkTen shape (map f (cells shape))) c = f c.
  Proof.
    intros H. unfold Tensor_model.tget. cbn [tdat tshape].
    rewrite (nth_indep _ zero (f (0, 0, 0))) by (rewrite map_length, cells_length; apply offset_lt; auto).
    rewrite map_nth, cells_nth_offset; auto.
  Qed.

  Lemma map_cells_wf shape (f : coord -> A) : twf (mkTen shape (map f (cells shape))).
  Proof. unfold twf. cbn [tdat tshape]. rewrite map_length, cells_length. reflexivity. Qed.

  (** Matrices. *)
  Lemma mindex_lt r c i j : i < r -> j < c -> i * c + j < r * c.
  Proof. intros. nia. Qed.

  Lemma mindex_inj c i j i' j' : j < c -> j' < c -> i * c + j = i' * c + j' -> i = i' /\ j = j'.
  Proof.
    intros H H' E.
    assert (Q : forall x y, y < c -> (x * c + y) / c = x).
    { intros x y Hy. rewrite Nat.div_add_l by lia. rewrite Nat.div_small by lia. lia. }
    assert (i = i') by (rewrite <- (Q i j H), <- (Q i' j' H'), E; reflexivity). subst. lia.
  Qed.

  Lemma mat_ext (m m' : mat A) : mwf m -> mwf m' -> mr m = mr m' -> mc m = mc m' ->
    (forall i j, i < mr m -> j < mc m -> mget m i j = mget m' i j) -> m = m'.
  Proof.
    intros W W' R C E. destruct m as [r c d], m' as [r' c' d']. cbn [mr mc mdat] in *. subst r' c'. f_equal.
    unfold mwf in *. cbn [mr mc mdat] in *.
    apply nth_ext with (d := zero) (d' := zero); [congruence|].
    intros n Hn. rewrite W in Hn.
    destruct c as [|c]; [lia|].
    pose proof (Nat.div_mod n (S c) ltac:(lia)) as D.
    pose proof (Nat.mod_upper_bound n (S c) ltac:(lia)) as U.
    assert (Hi : n / S c < r) by (apply Nat.div_lt_upper_bound; lia).
    specialize (E (n / S c) (n mod S c) Hi U). unfold Tensor_model.mget in E. cbn [mc mdat] in E.
    replace (n / S c * S c + n mod S c) with n in E by lia. exact E.
  Qed.

  Lemma mset_wf (m : mat A) i j v : mwf m -> mwf (mset m i j v).
  Proof. unfold mwf. cbn [mset mr mc mdat]. rewrite set_nth_length. auto. Qed.

  Lemma mget_mset (m : mat A) i j i' j' v : mwf m -> i < mr m -> j < mc m -> j' < mc m ->
    mget (mset m i j v) i' j' = if (i =? i') && (j =? j') then v else mget m i' j'.
  Proof.
    intros W Hi Hj Hj'. unfold Tensor_model.mget. cbn [mset mr mc mdat]. rewrite nth_set_nth.
    unfold mwf in W. rewrite W.
    replace (i * mc m + j <? mr m * mc m) with true by (symmetry; apply Nat.ltb_lt, mindex_lt; auto).
    rewrite andb_true_r. destruct (i * mc m + j =? i' * mc m + j') eqn:E.
    - apply Nat.eqb_eq, mindex_inj in E as [-> ->]; auto. rewrite !Nat.eqb_refl. reflexivity.
    - destruct (i =? i') eqn:E1; destruct (j =? j') eqn:E2; auto.
      apply Nat.eqb_eq in E1, E2. subst. rewrite Nat.eqb_refl in E. discriminate.
  Qed.

  Lemma zeros2_wf r c : mwf (zeros2 zero r c).
  Proof. unfold mwf, zeros2. cbn [mr mc mdat]. apply repeat_length. Qed.

  Lemma mget_zeros2 r c i j : mget (zeros2 zero r c) i j = zero.
  Proof. unfold Tensor_model.mget, zeros2. cbn [mc mdat]. apply nth_repeat. Qed.
End Buf.

(** Nested loops as one list of actions. *)
Lemma for_actions {S W} (act : S -> W -> S) (body : nat -> S -> S) (g : nat -> list W) n s :
  (forall i s, body i s = fold_left act (g i) s) ->
  for_ n body s = fold_left act (flat_map g (seq 0 n)) s.
Proof.
  intros H. unfold for_. generalize (seq 0 n). intros l. revert s.
  induction l as [|i l IH]; intros s; [reflexivity|]. cbn [fold_left flat_map].
  rewrite fold_left_app, <- H. apply IH.
Qed.

Lemma foreach_actions {S W X} (act : S -> W -> S) (body : X -> S -> S) (g : X -> list W) l s :
  (forall x s, body x s = fold_left act (g x) s) ->
  foreach l body s = fold_left act (flat_map g l) s.
Proof.
  intros H. unfold foreach. revert s. induction l as [|i l IH]; intros s; [reflexivity|].
  cbn [fold_left flat_map]. rewrite fold_left_app, <- H. apply IH.
Qed.

Section Acc.
  Context {A : Type} (zero : A) (add mul : A -> A -> A).
  Notation tget := (tget zero).

  (** A list of [t[c] += x]. *)
  Definition accum (ws : list (coord * A)) (t : ten A) : ten A :=
    fold_left (fun t w => tadd zero add t (fst w) (snd w)) ws t.

  Lemma tadd_shape (t : ten A) c x : tshape (tadd zero add t c x) = tshape t.
  Proof. reflexivity. Qed.

  Lemma accum_shape ws : forall t, tshape (accum ws t) = tshape t.
  Proof. induction ws as [|w ws IH]; intros t; [reflexivity|]. exact (IH (tadd zero add t (fst w) (snd w))). Qed.

  Lemma accum_wf ws : forall t, twf t -> twf (accum ws t).
  Proof.
    induction ws as [|w ws IH]; intros t W; [exact W|].
    apply (IH (tadd zero add t (fst w) (snd w))), tset_wf, W.
  Qed.

  Lemma accum_cons w ws t : accum (w :: ws) t = accum ws (tadd zero add t (fst w) (snd w)).
  Proof. reflexivity. Qed.

  Lemma accum_app ws1 ws2 t : accum (ws1 ++ ws2) t = accum ws2 (accum ws1 t).
  Proof. apply fold_left_app. Qed.

  Lemma tget_accum ws : forall t c, twf t -> in_range (tshape t) c ->
    Forall (fun w => in_range (tshape t) (fst w)) ws ->
    tget (accum ws t) c = fold_left add (values_at c ws) (tget t c).
  Proof.
    induction ws as [|w ws IH]; intros t c W Hc F; [reflexivity|].
    inversion F as [|? ? Fw F']; subst. rewrite accum_cons, IH; [|apply tset_wf; auto|auto|auto].
    unfold tadd. rewrite tget_tset; auto.
    unfold values_at. cbn [filter]. destruct (coord_eqb (fst w) c) eqn:E; [|reflexivity].
    apply coord_eqb_eq in E. subst c. reflexivity.
  Qed.

  (** The list of additions of construct_core, in its order. *)
  Definition core_writes (es : list (coord * A)) (u1 u2 u3 : mat A) : list (coord * A) :=
    flat_map (fun e => flat_map (fun i => flat_map (fun j => map (fun k =>
      ((i, j, k), mul (mul (mul (snd e) (mget zero u1 (c0 (fst e)) i)) (mget zero u2 (c1 (fst e)) j))
                      (mget zero u3 (c2 (fst e)) k))) (seq 0 (mc u3))) (seq 0 (mc u2))) (seq 0 (mc u1))) es.

  Lemma construct_core_writes inds vals u1 u2 u3 es :
    entries_in inds vals (mr u1, mr u2, mr u3) = Ok es ->
    construct_core zero add mul inds vals u1 u2 u3
    = Ok (accum (core_writes es u1 u2 u3) (zeros3 zero (mc u1, mc u2, mc u3))).
  Proof.
    intros H. unfold construct_core. rewrite H. cbn [bind]. f_equal.
    unfold accum, core_writes. apply foreach_actions. intros e s. apply for_actions. intros i s'.
    apply for_actions. intros j s''. 
    rewrite <- flat_map_singleton. apply for_actions. reflexivity.
  Qed.

  Lemma values_at_flat_map {X} c (f : X -> list (coord * A)) l :
    values_at c (flat_map f l) = flat_map (fun x => values_at c (f x)) l.
  Proof. unfold values_at. rewrite filter_flat_map, map_flat_map. reflexivity. Qed.

  Lemma flat_map_nil {X Y} (f : X -> list Y) l : (forall x, In x l -> f x = []) -> flat_map f l = [].
  Proof.
    induction l as [|x l IH]; intros H; [reflexivity|]. cbn [flat_map].
    rewrite (H x (or_introl eq_refl)), IH; auto. intros; apply H; right; auto.
  Qed.

  Lemma flat_map_pick {Y} n i (f : nat -> list Y) : i < n ->
    (forall j, j <> i -> f j = []) -> flat_map f (seq 0 n) = f i.
  Proof.
    intros Hi H. replace n with (i + (1 + (n - i - 1))) by lia.
    rewrite seq_app, flat_map_app, seq_app, flat_map_app. cbn [seq flat_map].
    rewrite (flat_map_nil f (seq 0 i)), (flat_map_nil f (seq _ (n - i - 1))), !app_nil_r; auto;
      intros x Hx; apply in_seq in Hx; apply H; lia.
  Qed.

  Lemma values_at_block (f : nat -> nat -> A) i n2 n3 c :
    c1 c < n2 -> c2 c < n3 ->
    values_at c (flat_map (fun j => map (fun k => ((i, j, k), f j k)) (seq 0 n3)) (seq 0 n2))
    = if i =? c0 c then [f (c1 c) (c2 c)] else [].
  Proof.
    intros H1 H2. rewrite values_at_flat_map.
    assert (P : forall j, values_at c (map (fun k => ((i, j, k), f j k)) (seq 0 n3))
                = if (i =? c0 c) && (j =? c1 c) then [f j (c2 c)] else []).
    { intros j. rewrite <- flat_map_singleton, values_at_flat_map.
      rewrite (flat_map_pick n3 (c2 c)); auto.
      - unfold values_at, coord_eqb. cbn [filter fst snd c0 c1 c2]. rewrite Nat.eqb_refl, andb_true_r.
        destruct ((i =? c0 c) && (j =? c1 c)); reflexivity.
      - intros k Hk. unfold values_at, coord_eqb. cbn [filter fst snd c0 c1 c2].
        replace (k =? c2 c) with false by (symmetry; apply Nat.eqb_neq; auto).
        rewrite andb_false_r. reflexivity. }
    rewrite (flat_map_pick n2 (c1 c)); auto.
    - rewrite P, Nat.eqb_refl, andb_true_r. reflexivity.
    - intros j Hj. rewrite P. replace (j =? c1 c) with false by (symmetry; apply Nat.eqb_neq; auto).
      rewrite andb_false_r. reflexivity.
  Qed.

  Definition term (u1 u2 u3 : mat A) (c : coord) (e : coord * A) : A :=
    mul (mul (mul (snd e) (mget zero u1 (c0 (fst e)) (c0 c))) (mget zero u2 (c1 (fst e)) (c1 c)))
        (mget zero u3 (c2 (fst e)) (c2 c)).

  Lemma core_writes_at es u1 u2 u3 c : in_range (mc u1, mc u2, mc u3) c ->
    values_at c (core_writes es u1 u2 u3) = map (term u1 u2 u3 c) es.
  Proof.
    intros [H0 [H1 H2]]. cbn [c0 c1 c2 fst snd] in H0, H1, H2. unfold core_writes.
    rewrite values_at_flat_map, <- flat_map_singleton. apply flat_map_ext_in. intros e _.
    rewrite values_at_flat_map, (flat_map_pick _ (c0 c)); auto.
    - rewrite (values_at_block (fun j k => mul (mul (mul (snd e) (mget zero u1 (c0 (fst e)) (c0 c))) (mget zero u2 (c1 (fst e)) j))
                      (mget zero u3 (c2 (fst e)) k))); auto. rewrite Nat.eqb_refl. reflexivity.
    - intros i Hi.
      rewrite (values_at_block (fun j k => mul (mul (mul (snd e) (mget zero u1 (c0 (fst e)) i)) (mget zero u2 (c1 (fst e)) j))
                      (mget zero u3 (c2 (fst e)) k))); auto.
      replace (i =? c0 c) with false by (symmetry; apply Nat.eqb_neq; auto). reflexivity.
  Qed.

  Lemma core_writes_range es u1 u2 u3 :
    Forall (fun w => in_range (mc u1, mc u2, mc u3) (fst w)) (core_writes es u1 u2 u3).
  Proof.
    apply Forall_forall. intros w H. unfold core_writes in H.
    apply in_flat_map in H as [e [_ H]]. apply in_flat_map in H as [i [Hi H]].
    apply in_flat_map in H as [j [Hj H]]. apply in_map_iff in H as [k [<- Hk]].
    apply in_seq in Hi, Hj, Hk. unfold in_range. cbn [fst snd c0 c1 c2]. lia.
  Qed.

  Lemma core_cell_exact inds vals u1 u2 u3 es :
    entries_in inds vals (mr u1, mr u2, mr u3) = Ok es ->
    exists core, construct_core zero add mul inds vals u1 u2 u3 = Ok core /\ twf core
      /\ tshape core = (mc u1, mc u2, mc u3)
      /\ forall c, in_range (tshape core) c ->
           tget core c = fold_left add (map (term u1 u2 u3 c) es) zero.
  Proof.
    intros H. eexists. split; [apply construct_core_writes; eauto|].
    split; [apply accum_wf, zeros3_wf|]. rewrite accum_shape. split; [reflexivity|].
    intros c Hc. rewrite tget_accum; [|apply zeros3_wf|exact Hc|apply core_writes_range].
    rewrite core_writes_at, tget_zeros3; [reflexivity|exact Hc].
  Qed.

  (** The parallel machine: what thread [i] does to its own row is independent of
      the schedule.  Thread [i] writes to row [i] only. *)
  Definition owned (i : nat) (ws : list (coord * A)) (shape : coord) : Prop :=
    Forall (fun w => in_range shape (fst w) /\ c0 (fst w) = i) ws.

  (** Invariant: thread [i] with instruction list [p i] has executed a prefix [d i];
      the memory agrees, on row [i], with executing that prefix alone. *)
  Definition minv (p : nat -> list (coord * A)) (start : ten A) (n : nat) (m : machine (A := A)) : Prop :=
    twf (memory m) /\ tshape (memory m) = tshape start /\ length (threads m) = n
    /\ forall i t, nth_error (threads m) i = Some t ->
         exists d, p i = d ++ todo t
           /\ (forall c, in_range (tshape start) c -> c0 c = i -> tget (memory m) c = tget (accum d start) c)
           /\ match loaded t with
              | None => True
              | Some v => match todo t with
                          | (c, _) :: _ => v = tget (accum d start) c
                          | [] => False
                          end
              end.

  Lemma step_inv p start n m i : twf start ->
    (forall i, owned i (p i) (tshape start)) ->
    minv p start n m -> minv p start n (step zero add m i).
  Proof.
    intros WS OW [W [S [LN I]]]. unfold step.
    destruct (nth_error (threads m) i) as [[td ld]|] eqn:E; [|exact (conj W (conj S (conj LN I)))].
    destruct td as [|[c x] r]; [exact (conj W (conj S (conj LN I)))|].
    destruct (I i _ E) as [d [P [M L]]]. cbn [todo loaded] in P, L.
    assert (OC : in_range (tshape start) c /\ c0 c = i).
    { pose proof (OW i) as O. unfold owned in O. rewrite P, Forall_forall in O.
      apply (O (c, x)). apply in_or_app. right. left. reflexivity. }
    assert (LI : i < length (threads m)) by (apply nth_error_Some; congruence).
    destruct ld as [v|].
    - (* store *)
      split; [apply tset_wf; auto|]. split; [exact S|]. cbn [threads memory]. rewrite set_nth_length. split; auto.
      intros j t Hj. rewrite nth_error_set_nth in Hj. destruct (Nat.eqb i j) eqn:EJ.
      + apply Nat.eqb_eq in EJ. subst j.
        replace t with (mkThread r None : thread (A := A)) in *.
        2:{ rewrite E in Hj. congruence. }
        exists (d ++ [(c, x)]). split; [rewrite <- app_assoc; exact P|]. split; [|exact Logic.I].
        intros c' Hc' Ei. rewrite accum_app. cbn [accum fold_left fst snd]. unfold tadd.
        rewrite tget_tset; [|auto|rewrite S; apply OC|rewrite S; auto].
        rewrite tget_tset; [|apply accum_wf; auto|rewrite accum_shape; apply OC|rewrite accum_shape; auto].
        destruct (coord_eqb c c'); [rewrite L; reflexivity|apply M; auto].
      + destruct (I j t) as [d' [P' [M' L']]]; [revert Hj; cbn; auto|].
        exists d'. split; [exact P'|]. split; [|exact L'].
        intros c' Hc' Ei. rewrite tget_tset; [|auto|rewrite S; apply OC|rewrite S; auto].
        destruct (coord_eqb c c') eqn:EC; [|apply M'; auto].
        apply coord_eqb_eq in EC. subst c'. apply Nat.eqb_neq in EJ. destruct OC as [_ OC]. congruence.
    - (* load *)
      split; [exact W|]. split; [exact S|]. cbn [threads memory]. rewrite set_nth_length. split; auto.
      intros j t Hj. rewrite nth_error_set_nth in Hj. destruct (Nat.eqb i j) eqn:EJ.
      + apply Nat.eqb_eq in EJ. subst j.
        replace t with (mkThread ((c, x) :: r) (Some (tget (memory m) c))) in *.
        2:{ rewrite E in Hj. congruence. }
        exists d. split; [exact P|]. split; [exact M|]. cbn [loaded todo]. apply M; apply OC.
      + destruct (I j t) as [d' [P' [M' L']]]; [revert Hj; cbn; auto|].
        exists d'. split; [exact P'|]. split; [exact M'|exact L'].
  Qed.

  Lemma run_inv p start n sched : forall m, twf start ->
    (forall i, owned i (p i) (tshape start)) ->
    minv p start n m -> minv p start n (run zero add sched m).
  Proof.
    induction sched as [|i s IH]; intros m W O I; [exact I|]. cbn [run fold_left].
    apply IH; auto. apply step_inv; auto.
  Qed.

  Lemma start_inv (p : nat -> list (coord * A)) start n : twf start ->
    minv p start n (mkMachine start (map (fun i => mkThread (p i) None) (seq 0 n))).
  Proof.
    intros W. split; [exact W|]. split; [reflexivity|]. cbn [threads memory].
    rewrite map_length, seq_length. split; [reflexivity|]. intros i t H.
    pose proof (proj1 (nth_error_Some _ _) (ltac:(congruence) : nth_error (map (fun i => mkThread (p i) None) (seq 0 n)) i <> None)) as L.
    rewrite map_length, seq_length in L.
    rewrite (map_nth_error (fun i => mkThread (p i) None) i (seq 0 n) (d := i)) in H.
    - injection H as <-. exists []. cbn [todo loaded app]. auto.
    - rewrite (nth_error_nth' (seq 0 n) 0) by (rewrite seq_length; auto). rewrite seq_nth; auto.
  Qed.

  (** Result of any complete schedule, cell by cell. *)
  Lemma run_result (p : nat -> list (coord * A)) start n sched m :
    twf start -> c0 (tshape start) = n ->
    (forall i, owned i (p i) (tshape start)) ->
    run zero add sched (mkMachine start (map (fun i => mkThread (p i) None) (seq 0 n))) = m ->
    finished m ->
    twf (memory m) /\ tshape (memory m) = tshape start
    /\ forall c, in_range (tshape start) c ->
         tget (memory m) c = fold_left add (values_at c (p (c0 c))) (tget start c).
  Proof.
    intros W N O R F. pose proof (run_inv p start n sched _ W O (start_inv p start n W)) as I.
    rewrite R in I. destruct I as [WM [S [LN I]]]. split; [exact WM|]. split; [exact S|].
    intros c Hc. assert (L : c0 c < length (threads m)) by (rewrite LN, <- N; apply Hc).
    destruct (nth_error (threads m) (c0 c)) as [t|] eqn:E; [|apply nth_error_None in E; lia].
    destruct (I _ _ E) as [d [P [M _]]]. 
    assert (T : todo t = []) by (unfold finished in F; rewrite Forall_forall in F; apply F; eapply nth_error_In; eauto).
    rewrite T, app_nil_r in P. rewrite (M c Hc eq_refl), <- P. apply tget_accum; auto.
    apply Forall_impl with (2 := O (c0 c)). tauto.
  Qed.

  (** How far a thread is depends only on its number of steps. *)
  Definition work (t : thread (A := A)) : nat :=
    2 * length (todo t) - match loaded t with Some _ => 1 | None => 0 end.

  Lemma step_work m i j t :
    (forall t, In t (threads m) -> loaded t <> None -> todo t <> []) ->
    nth_error (threads m) j = Some t ->
    (forall t, In t (threads (step zero add m i)) -> loaded t <> None -> todo t <> [])
    /\ exists t', nth_error (threads (step zero add m i)) j = Some t'
         /\ work t' = work t - (if Nat.eqb j i then 1 else 0).
  Proof.
    intros OKL E. unfold step.
    destruct (nth_error (threads m) i) as [[td ld]|] eqn:EI.
    2:{ split; [exact OKL|]. exists t. split; auto. destruct (Nat.eqb j i) eqn:EJ; [|lia].
        apply Nat.eqb_eq in EJ. congruence. }
    destruct td as [|[c x] r].
    { split; [exact OKL|]. exists t. split; auto. destruct (Nat.eqb j i) eqn:EJ; [|lia].
      apply Nat.eqb_eq in EJ. subst j. rewrite EI in E. injection E as <-. unfold work. reflexivity. }
    assert (IN : forall new, (loaded new <> None -> todo new <> []) ->
      forall t, In t (set_nth i new (threads m)) -> loaded t <> None -> todo t <> []).
    { intros new Hn t' Ht. apply In_nth_error in Ht as [q Hq]. rewrite nth_error_set_nth in Hq.
      destruct (Nat.eqb i q) eqn:EQ; cbn in Hq.
      - apply Nat.eqb_eq in EQ. subst q. rewrite EI in Hq.
        assert (t' = new) by congruence. subst; auto.
      - apply OKL. eapply nth_error_In; eauto. }
    destruct ld as [v|]; cbn [threads].
    - split; [apply IN; cbn; congruence|].
      destruct (Nat.eqb j i) eqn:EJ.
      + apply Nat.eqb_eq in EJ. subst j. exists (mkThread r None). rewrite nth_error_set_nth, Nat.eqb_refl.
        rewrite EI. split; auto. rewrite EI in E. injection E as <-. unfold work. cbn [todo loaded length]. lia.
      + exists t. rewrite nth_error_set_nth, Nat.eqb_sym, EJ. cbn. split; auto. lia.
    - split; [apply IN; cbn; congruence|].
      destruct (Nat.eqb j i) eqn:EJ.
      + apply Nat.eqb_eq in EJ. subst j. eexists. rewrite nth_error_set_nth, Nat.eqb_refl.
        rewrite EI. split; [reflexivity|]. rewrite EI in E. injection E as <-. unfold work. cbn [todo loaded length]. lia.
      + exists t. rewrite nth_error_set_nth, Nat.eqb_sym, EJ. cbn. split; auto. lia.
  Qed.
End Acc.
