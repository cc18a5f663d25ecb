(** Assembly for C28-C32: folding, conversions, cores. *)
From Coq Require Import ZArith List Bool Lia Permutation Ring ArithRing.
From Verif Require Import Prelude Prelude_proofs Tensor_model Tensor_spec Tensor_proofs Tensor_sums.
Import ListNotations.
Open Scope nat_scope.

Lemma other_modes_ok mode n a b : modes mode n a b -> other_modes mode = Ok (a, b) /\ Z.to_nat mode = n.
Proof. intros []; split; reflexivity. Qed.

Lemma other_modes_bad mode : (mode < 0 \/ 3 <= mode)%Z -> other_modes mode = Err ValueError.
Proof.
  intros H. unfold other_modes. cbn [filter].
  replace (Z.of_nat 0 =? mode)%Z with false by (symmetry; apply Z.eqb_neq; lia).
  replace (Z.of_nat 1 =? mode)%Z with false by (symmetry; apply Z.eqb_neq; lia).
  replace (Z.of_nat 2 =? mode)%Z with false by (symmetry; apply Z.eqb_neq; lia).
  reflexivity.
Qed.

Lemma modes_cases mode : (exists n a b, modes mode n a b) \/ (mode < 0 \/ 3 <= mode)%Z.
Proof.
  destruct (Z.eq_dec mode 0) as [->|]; [left; do 3 eexists; constructor|].
  destruct (Z.eq_dec mode 1) as [->|]; [left; do 3 eexists; constructor|].
  destruct (Z.eq_dec mode 2) as [->|]; [left; do 3 eexists; constructor|]. right; lia.
Qed.

Lemma modes_range mode n a b : modes mode n a b -> (0 <= mode < 3)%Z.
Proof. intros []; lia. Qed.

Section Dense.
  Context {A : Type} (zero : A).
  Notation tget := (tget zero).
  Notation mget := (mget zero).

  Lemma transpose3_wf axes (t : ten A) : twf (transpose3 zero axes t).
  Proof. apply map_cells_wf. Qed.

  Lemma unfold_dense_main (t : ten A) mode n a b : twf t -> modes mode n a b ->
    exists m, unfold_dense zero t mode = Ok m /\ mwf m
      /\ mr m = pick (tshape t) n /\ mc m = pick (tshape t) a * pick (tshape t) b
      /\ forall c, in_range (tshape t) c ->
           mget m (pick c n) (pick c a + pick (tshape t) a * pick c b) = tget t c.
  Proof.
    intros W M. destruct (other_modes_ok _ _ _ _ M) as [E1 E2]. unfold unfold_dense.
    rewrite E1. cbn [bind]. rewrite E2. unfold reshape32.
    assert (SZ : (size (tshape (transpose3 zero (n, b, a) t))
                  =? pick (tshape t) n * (pick (tshape t) a * pick (tshape t) b)) = true).
    { apply Nat.eqb_eq. unfold size, transpose3. cbn [tshape c0 c1 c2 fst snd]. ring. }
    rewrite SZ. eexists. split; [reflexivity|]. split; [|split; [reflexivity|split; [reflexivity|]]].
    - unfold mwf. cbn [mdat mr mc]. rewrite (transpose3_wf (n, b, a) t : length _ = _).
      unfold transpose3. cbn [tshape c0 c1 c2 fst snd]. ring.
    - intros c Hc. unfold Tensor_model.mget. cbn [mc mdat].
      transitivity (tget (transpose3 zero (n, b, a) t) (pick c n, pick c b, pick c a)).
      + unfold Tensor_model.tget. f_equal. unfold offset, transpose3. cbn [tshape c0 c1 c2 fst snd]. ring.
      + unfold transpose3. rewrite tget_map_cells.
        * f_equal. destruct Hc as [H0 [H1 H2]]. destruct M; apply coord_ext; reflexivity.
        * destruct Hc as [H0 [H1 H2]]. destruct M; repeat split; auto.
  Qed.

  Lemma fold_dense_main (m : mat A) shape mode n a b : mwf m -> modes mode n a b ->
    (mr m * mc m <> c0 shape * c1 shape * c2 shape -> fold_dense zero m shape mode = Err ValueError)
    /\ (mr m * mc m = c0 shape * c1 shape * c2 shape ->
        exists t, fold_dense zero m shape mode = Ok t /\ twf t /\ tshape t = shape
          /\ forall c, in_range shape c ->
               tget t c = nth (pick c n * (pick shape a * pick shape b)
                               + (pick c a + pick shape a * pick c b)) (mdat m) zero).
  Proof.
    intros W M. destruct (other_modes_ok _ _ _ _ M) as [E1 E2]. unfold fold_dense.
    rewrite E1. cbn [bind]. rewrite E2. unfold reshape23.
    assert (SZ : size (pick shape n, pick shape b, pick shape a) = c0 shape * c1 shape * c2 shape).
    { unfold size. cbn [c0 c1 c2 fst snd]. destruct M; cbn [pick]; ring. }
    rewrite SZ. split; intros H.
    - replace (mr m * mc m =? c0 shape * c1 shape * c2 shape) with false by (symmetry; apply Nat.eqb_neq; auto).
      reflexivity.
    - replace (mr m * mc m =? c0 shape * c1 shape * c2 shape) with true by (symmetry; apply Nat.eqb_eq; auto).
      cbn [bind]. eexists. split; [reflexivity|]. split; [apply transpose3_wf|].
      assert (SH : tshape (transpose3 zero (if (mode =? 1)%Z then (b, a, n) else (n, b, a))
                     (mkTen (pick shape n, pick shape b, pick shape a) (mdat m))) = shape).
      { destruct M; apply coord_ext; reflexivity. }
      split; [exact SH|]. intros c Hc. unfold transpose3 at 1. 
      set (sh := (_, _, _)). assert (SH' : sh = shape) by exact SH.
      rewrite tget_map_cells by (rewrite SH'; auto).
      unfold Tensor_model.tget. cbn [tshape tdat]. f_equal. clear SH SH'. subst sh.
      destruct M; unfold offset, source_axis; cbn; ring.
  Qed.

  Lemma dense_bad_mode mode : (mode < 0 \/ 3 <= mode)%Z ->
    (forall t, unfold_dense zero t mode = Err ValueError)
    /\ forall m shape, fold_dense zero m shape mode = Err ValueError.
  Proof.
    intros H. unfold unfold_dense, fold_dense. rewrite (other_modes_bad _ H). split; reflexivity.
  Qed.

  Lemma fold_unfold_main (t : ten A) mode m : twf t ->
    unfold_dense zero t mode = Ok m -> fold_dense zero m (tshape t) mode = Ok t.
  Proof.
    intros W H. destruct (modes_cases mode) as [[n [a [b M]]]|B].
    2:{ rewrite (proj1 (dense_bad_mode _ B)) in H. discriminate. }
    destruct (unfold_dense_main t mode n a b W M) as [m' [E [WM [R [C P]]]]].
    rewrite H in E. injection E as <-.
    assert (SZ : mr m * mc m = c0 (tshape t) * c1 (tshape t) * c2 (tshape t)).
    { rewrite R, C. destruct M; cbn [pick]; ring. }
    destruct (proj2 (fold_dense_main m (tshape t) mode n a b WM M) SZ) as [t' [E [WT [S Q]]]].
    rewrite E. f_equal. apply (ten_ext zero); auto. rewrite S. intros c Hc. rewrite (Q c Hc), <- (P c Hc).
    unfold Tensor_model.mget. rewrite C. reflexivity.
  Qed.

  Lemma unfold_fold_main (m : mat A) shape mode t : mwf m ->
    fold_dense zero m shape mode = Ok t ->
    exists m', unfold_dense zero t mode = Ok m' /\ mdat m' = mdat m
      /\ (forall n a b, modes mode n a b ->
            mr m' = pick shape n /\ mc m' = pick shape a * pick shape b
            /\ (mr m = pick shape n -> mc m = pick shape a * pick shape b -> m' = m)).
  Proof.
    intros W H. destruct (modes_cases mode) as [[n [a [b M]]]|B].
    2:{ rewrite (proj2 (dense_bad_mode _ B)) in H. discriminate. }
    destruct (fold_dense_main m shape mode n a b W M) as [F1 F2].
    destruct (Nat.eq_dec (mr m * mc m) (c0 shape * c1 shape * c2 shape)) as [SZ|SZ].
    2:{ rewrite (F1 SZ) in H. discriminate. }
    destruct (F2 SZ) as [t' [E [WT [S Q]]]]. rewrite H in E. injection E as <-.
    destruct (unfold_dense_main t mode n a b WT M) as [m' [E [WM [R [C P]]]]].
    assert (K : m' = mkMat (pick shape n) (pick shape a * pick shape b) (mdat m)).
    { apply (mat_ext zero); auto.
      - unfold mwf. cbn [mr mc mdat]. rewrite (W : length _ = _), SZ. destruct M; cbn [pick]; ring.
      - rewrite R, S. reflexivity.
      - rewrite C, S. reflexivity.
      - rewrite R, C, S. intros i j Hi Hj.
        assert (HA : pick shape a <> 0) by (intros Z0; rewrite Z0 in Hj; lia).
        set (c := match mode with 0%Z => (i, j mod pick shape a, j / pick shape a)
                  | 1%Z => (j mod pick shape a, i, j / pick shape a)
                  | _ => (j mod pick shape a, j / pick shape a, i) end).
        pose proof (Nat.div_mod j _ HA) as D. pose proof (Nat.mod_upper_bound j _ HA) as U.
        assert (V : j / pick shape a < pick shape b) by (apply Nat.div_lt_upper_bound; auto).
        assert (PC : pick c n = i /\ pick c a = j mod pick shape a /\ pick c b = j / pick shape a)
          by (subst c; destruct M; repeat split).
        destruct PC as [P1 [P2 P3]].
        assert (Hc : in_range shape c) by (subst c; destruct M; repeat split; auto).
        specialize (P c). rewrite S, P1, P2, P3 in P. specialize (P Hc).
        replace (j mod pick shape a + pick shape a * (j / pick shape a)) with j in P by lia.
        rewrite P, (Q c Hc), P1, P2, P3. unfold Tensor_model.mget. cbn [mc mdat]. f_equal. lia. }
    exists m'. split; [exact E|]. split; [rewrite K; reflexivity|].
    intros n' a' b' M'.
    assert (n' = n /\ a' = a /\ b' = b) as [-> [-> ->]] by (destruct M; inversion M'; auto).
    split; [rewrite K; reflexivity|]. split; [rewrite K; reflexivity|].
    intros R' C'. rewrite K. destruct m as [r c d]. cbn [mr mc mdat] in *. congruence.
  Qed.

  (** Dense to sparse. *)
  Lemma dense_to_sparse_cells (t : ten A) :
    dense_to_sparse_tensor zero t = (cells (tshape t), map (tget t) (cells (tshape t))).
  Proof.
    assert (K : forall l (s : list coord * list A),
      fold_left (fun s c => (fst s ++ [c], snd s ++ [tget t c])) l s = (fst s ++ l, snd s ++ map (tget t) l)).
    { induction l as [|c l IH]; intros [x y]; cbn [fold_left map fst snd]; [rewrite !app_nil_r; reflexivity|].
      rewrite IH. cbn [fst snd]. rewrite <- !app_assoc. reflexivity. }
    unfold dense_to_sparse_tensor.
    rewrite (for_actions (fun s c => (fst s ++ [c], snd s ++ [tget t c])) _
      (fun i => flat_map (fun j => map (fun k => (i, j, k)) (seq 0 (c2 (tshape t)))) (seq 0 (c1 (tshape t))))).
    { fold (cells (tshape t)). rewrite K. reflexivity. }
    intros i s. apply for_actions. intros j s'. rewrite <- flat_map_singleton. apply for_actions. reflexivity.
  Qed.

  Lemma foreach_tset_wf (es : list (coord * A)) : forall t, twf t ->
    twf (foreach es (fun e t => tset t (fst e) (snd e)) t)
    /\ tshape (foreach es (fun e t => tset t (fst e) (snd e)) t) = tshape t.
  Proof.
    induction es as [|e es IH]; intros t W; [split; auto|]. cbn [foreach fold_left].
    destruct (IH (tset t (fst e) (snd e)) (tset_wf _ _ _ W)) as [I1 I2]. split; [exact I1|exact I2].
  Qed.

  Lemma tget_foreach_tset (es : list (coord * A)) : forall t c, twf t -> in_range (tshape t) c ->
    Forall (fun e => in_range (tshape t) (fst e)) es ->
    tget (foreach es (fun e t => tset t (fst e) (snd e)) t) c = last (values_at c es) (tget t c).
  Proof.
    induction es as [|e es IH]; intros t c W Hc F; [reflexivity|].
    inversion F as [|? ? Fe F']; subst. cbn [foreach fold_left].
    change (tget (foreach es (fun e t => tset t (fst e) (snd e)) (tset t (fst e) (snd e))) c = last (values_at c (e :: es)) (tget t c)).
    rewrite IH by (auto using tset_wf). rewrite tget_tset by auto.
    unfold values_at. cbn [filter]. destruct (coord_eqb (fst e) c); [|reflexivity].
    cbn [map]. generalize (map snd (filter (fun e0 => coord_eqb (fst e0) c) es)). intros l.
    destruct l as [|y l]; [reflexivity|]. cbn [last]. revert y. induction l as [|z l IHl]; intros y; [reflexivity|].
    apply (IHl z).
  Qed.

  Lemma zip_entries_iff (inds : list coord) (vals : list A) shape es :
    (match zip_entries inds vals with
     | Some es' => if forallb (fun e => in_shape shape (fst e)) es' then Some es' else None
     | None => None
     end = Some es)
    <-> length vals <= length inds /\ Forall (in_range shape) (firstn (length vals) inds) /\ es = combine inds vals.
  Proof.
    unfold zip_entries.
    assert (FI : length vals <= length inds -> map fst (combine inds vals) = firstn (length vals) inds).
    { revert vals. induction inds as [|c inds IH]; intros [|v vals] L; cbn in *; try lia; auto.
      f_equal. apply IH. lia. }
    assert (FB : length vals <= length inds ->
      (forallb (fun e => in_shape shape (fst e)) (combine inds vals) = true
       <-> Forall (in_range shape) (firstn (length vals) inds))).
    { intros L. rewrite <- (FI L), forallb_forall, Forall_map, Forall_forall.
      split; intros H x Hx; apply in_shape_iff; apply H; auto. }
    destruct (length vals <=? length inds) eqn:E.
    - apply Nat.leb_le in E. specialize (FB E).
      destruct (forallb _ _) eqn:E2; split.
      + intros H. injection H as <-. split; auto. split; [apply FB; auto|reflexivity].
      + intros [_ [_ ->]]. reflexivity.
      + discriminate.
      + intros [_ [H _]]. apply FB in H. discriminate.
    - apply Nat.leb_gt in E. split; [discriminate|]. intros [H _]. lia.
  Qed.

  Lemma entries_in_iff (inds : list coord) (vals : list A) shape :
    (forall es, entries_in inds vals shape = Ok es <->
       length vals <= length inds /\ Forall (in_range shape) (firstn (length vals) inds) /\ es = combine inds vals)
    /\ ((exists es, entries_in inds vals shape = Ok es) \/ entries_in inds vals shape = Err OutOfBounds).
  Proof.
    unfold entries_in. split.
    - intros es. rewrite <- zip_entries_iff. destruct (zip_entries inds vals) as [x|].
      + destruct (forallb _ x); split; intros; congruence.
      + split; intros; discriminate.
    - destruct (zip_entries inds vals); auto. destruct (forallb _ l); eauto.
  Qed.

  Lemma entries_range (inds : list coord) (vals : list A) shape es :
    entries_in inds vals shape = Ok es -> Forall (fun e => in_range shape (fst e)) es.
  Proof.
    unfold entries_in. destruct (zip_entries inds vals); [|discriminate].
    destruct (forallb _ l) eqn:E; [|discriminate]. intros H. injection H as <-.
    apply Forall_forall. intros e He. rewrite forallb_forall in E. apply in_shape_iff. auto.
  Qed.

  Lemma sparse_to_dense_eq (inds : list coord) (vals : list A) shape :
    sparse_to_dense_tensor zero inds vals shape
    = match entries_in inds vals shape with
      | Ok es => Ok (foreach es (fun e t => tset t (fst e) (snd e)) (zeros3 zero shape))
      | Err e => Err e
      end.
  Proof.
    unfold sparse_to_dense_tensor, entries_in. destruct (zip_entries inds vals); [|reflexivity].
    destruct (forallb _ l); reflexivity.
  Qed.

  Lemma sparse_to_dense_main (inds : list coord) (vals : list A) shape :
    (length vals <= length inds /\ Forall (in_range shape) (firstn (length vals) inds) ->
     exists t, sparse_to_dense_tensor zero inds vals shape = Ok t /\ twf t /\ tshape t = shape
       /\ forall c, in_range shape c -> tget t c = last (values_at c (combine inds vals)) zero)
    /\ (~ (length vals <= length inds /\ Forall (in_range shape) (firstn (length vals) inds)) ->
        sparse_to_dense_tensor zero inds vals shape = Err OutOfBounds).
  Proof.
    rewrite sparse_to_dense_eq. destruct (entries_in_iff inds vals shape) as [I O]. split.
    - intros [H1 H2]. rewrite (proj2 (I (combine inds vals))) by auto.
      pose proof (entries_range _ _ _ _ (proj2 (I (combine inds vals)) (conj H1 (conj H2 eq_refl)))) as F.
      destruct (foreach_tset_wf (combine inds vals) (zeros3 zero shape) (zeros3_wf zero shape)) as [W S].
      eexists. split; [reflexivity|]. split; [exact W|]. split; [exact S|].
      intros c Hc. rewrite tget_foreach_tset; auto using zeros3_wf. rewrite tget_zeros3. reflexivity.
    - intros H. destruct O as [[es O]|O]; rewrite O; auto. apply I in O. tauto.
  Qed.

  Lemma values_at_cells (f : coord -> A) shape c : in_range shape c ->
    values_at c (map (fun d => (d, f d)) (cells shape)) = [f c].
  Proof.
    intros H. apply cells_In in H. pose proof (cells_NoDup shape) as N. revert N H.
    generalize (cells shape). intros l. induction l as [|d l IH]; intros N H; [destruct H|].
    inversion N as [|? ? N1 N2]; subst. unfold values_at. cbn [map filter fst].
    destruct (coord_eqb d c) eqn:E.
    - apply coord_eqb_eq in E. subst d. cbn [map snd]. f_equal.
      assert (K : filter (fun e : coord * A => coord_eqb (fst e) c) (map (fun d => (d, f d)) l) = []).
      { clear - N1. induction l as [|x l IH]; [reflexivity|]. cbn [map filter fst].
        destruct (coord_eqb x c) eqn:E; [apply coord_eqb_eq in E; subst; exfalso; apply N1; left; auto|].
        apply IH. intros H. apply N1. right. auto. }
      rewrite K. reflexivity.
    - destruct H as [->|H]; [rewrite coord_eqb_refl in E; discriminate|]. apply (IH N2 H).
  Qed.

  Lemma combine_map_self {X Y} (f : X -> Y) l : combine l (map f l) = map (fun x => (x, f x)) l.
  Proof. induction l; cbn; congruence. Qed.

  Lemma dense_sparse_roundtrip_main (t : ten A) : twf t ->
    exists inds vals, dense_to_sparse_tensor zero t = (inds, vals)
      /\ length inds = c0 (tshape t) * c1 (tshape t) * c2 (tshape t) /\ length vals = length inds
      /\ NoDup inds /\ (forall c, In c inds <-> in_range (tshape t) c)
      /\ sparse_to_dense_tensor zero inds vals (tshape t) = Ok t.
  Proof.
    intros W. rewrite dense_to_sparse_cells. do 2 eexists. split; [reflexivity|].
    split; [apply cells_length|]. split; [apply map_length|]. split; [apply cells_NoDup|].
    split; [apply cells_In|].
    destruct (proj1 (sparse_to_dense_main (cells (tshape t)) (map (tget t) (cells (tshape t))) (tshape t)))
      as [t' [E [W' [S P]]]].
    { rewrite map_length. split; [lia|]. rewrite firstn_all. apply Forall_forall. apply cells_In. }
    rewrite E. f_equal. apply (ten_ext zero); auto. rewrite S. intros c Hc. rewrite (P c Hc), combine_map_self, values_at_cells; auto.
  Qed.
End Dense.

Section Sparse.
  Context {A : Type} (zero : A) (add : A -> A -> A).

  Lemma unfold_sparse_main (inds : list coord) (vals : list A) shape mode n a b :
    modes mode n a b -> length inds = length vals ->
    let row c := pick c n in
    let col c := pick c a + pick shape a * pick c b in
    ((exists m, unfold_sparse inds vals shape mode = Ok m)
     <-> Forall (fun c => row c < pick shape n /\ col c < pick shape a * pick shape b) inds)
    /\ ((exists m, unfold_sparse inds vals shape mode = Ok m) \/ unfold_sparse inds vals shape mode = Err ValueError)
    /\ forall m, unfold_sparse inds vals shape mode = Ok m ->
         coo_r m = pick shape n /\ coo_c m = pick shape a * pick shape b
         /\ coo_entries m = combine (map (fun c => (row c, col c)) inds) vals.
  Proof.
    intros M L. destruct (other_modes_ok _ _ _ _ M) as [E1 E2]. cbv zeta. unfold unfold_sparse.
    rewrite L, Nat.eqb_refl. cbn [negb]. pose proof (modes_range _ _ _ _ M) as R.
    replace ((3 <=? mode) || (mode <? 0))%Z with false
      by (symmetry; apply orb_false_iff; split; [apply Z.leb_gt|apply Z.ltb_ge]; lia).
    rewrite E1. cbn [bind]. rewrite E2.
    set (r := map (fun c => pick c n) inds). set (cl := map _ inds).
    assert (FB : forallb (fun x => x <? pick shape n) r && forallb (fun x => x <? pick shape a * pick shape b) cl = true
                 <-> Forall (fun c => pick c n < pick shape n /\ pick c a + pick shape a * pick c b < pick shape a * pick shape b) inds).
    { subst r cl. rewrite andb_true_iff, !forallb_forall, Forall_forall. split.
      - intros [H1 H2] c Hc. split; apply Nat.ltb_lt; [apply H1|apply H2]; apply in_map_iff; eauto.
      - intros H. split; intros x Hx; apply in_map_iff in Hx as [c [<- Hc]]; apply Nat.ltb_lt, H; auto. }
    destruct (forallb _ r && forallb _ cl).
    - split; [split; [intros _; apply FB; reflexivity|eauto]|]. split; [eauto|].
      intros m H. injection H as <-. cbn [coo_r coo_c coo_entries]. repeat split.
      f_equal. subst r cl. clear. induction inds as [|c l IH]; cbn; congruence.
    - split; [split; [intros [m H]; discriminate|intros H; apply FB in H; discriminate]|].
      split; [auto|]. intros m H. discriminate.
  Qed.

  Lemma unfold_sparse_bad (inds : list coord) (vals : list A) shape mode :
    length inds <> length vals \/ (mode < 0 \/ 3 <= mode)%Z ->
    unfold_sparse inds vals shape mode = Err RuntimeError.
  Proof.
    intros H. unfold unfold_sparse. destruct (length inds =? length vals) eqn:E; cbn [negb]; [|reflexivity].
    apply Nat.eqb_eq in E. destruct H as [H|H]; [contradiction|].
    replace ((3 <=? mode) || (mode <? 0))%Z with true; [reflexivity|].
    symmetry. apply orb_true_iff. destruct H; [right; apply Z.ltb_lt|left; apply Z.leb_le]; lia.
  Qed.

  Lemma col_inj pa x y x' y' : x + pa * y = x' + pa * y' -> x < pa -> x' < pa -> x = x' /\ y = y'.
  Proof.
    intros E H H'. assert (y * pa + x = y' * pa + x') by lia.
    apply mindex_inj in H0 as [? ?]; auto.
  Qed.

  (** The matrix cell of a tensor cell holds the entries of that cell. *)
  Lemma coo_values (inds : list coord) (vals : list A) shape mode n a b m c :
    modes mode n a b -> Forall (in_range shape) inds -> in_range shape c ->
    unfold_sparse inds vals shape mode = Ok m ->
    map snd (filter (fun e => (fst (fst e) =? pick c n) && (snd (fst e) =? pick c a + pick shape a * pick c b)) (coo_entries m))
    = values_at c (combine inds vals).
  Proof.
    intros M F Hc H.
    assert (L : length inds = length vals).
    { destruct (Nat.eq_dec (length inds) (length vals)); auto.
      rewrite unfold_sparse_bad in H by auto. discriminate. }
    destruct (unfold_sparse_main inds vals shape mode n a b M L) as [_ [_ P]].
    destruct (P m H) as [_ [_ E]]. rewrite E. clear - M F Hc.
    revert vals. induction F as [|d inds Fd F IH]; intros [|v vals]; try reflexivity.
    cbn [map combine]. unfold values_at. cbn [filter fst snd].
    replace ((pick d n =? pick c n) && (pick d a + pick shape a * pick d b =? pick c a + pick shape a * pick c b))
      with (coord_eqb d c).
    - destruct (coord_eqb d c); cbn [map]; rewrite IH; reflexivity.
    - destruct Fd as [D0 [D1 D2]], Hc as [C0 [C1 C2]].
      destruct ((pick d n =? pick c n) && (pick d a + pick shape a * pick d b =? pick c a + pick shape a * pick c b)) eqn:E.
      + apply andb_true_iff in E as [X Y]. apply Nat.eqb_eq in X, Y. apply coord_eqb_eq.
        destruct M; cbn [pick] in *; clear IH;
          apply col_inj in Y as [Y1 Y2]; auto; apply coord_ext; auto.
      + apply coord_eqb_neq. intros ->. rewrite !Nat.eqb_refl in E. discriminate.
  Qed.

  Lemma filter_none_in {X} (f : X -> bool) l : (forall x, In x l -> f x = false) -> filter f l = [].
  Proof.
    induction l as [|x l IH]; intros H; [reflexivity|]. cbn [filter].
    rewrite (H x (or_introl eq_refl)). apply IH. intros; apply H; right; auto.
  Qed.

  Lemma values_at_unique (inds : list coord) (vals : list A) c v :
    NoDup inds -> In (c, v) (combine inds vals) -> values_at c (combine inds vals) = [v].
  Proof.
    intros N. revert vals. induction N as [|d inds N1 N2 IH]; intros [|w vals] H; try (destruct H; fail).
    cbn [combine] in *. unfold values_at. cbn [filter fst]. destruct (coord_eqb d c) eqn:E.
    - apply coord_eqb_eq in E. subst d. cbn [map snd].
      assert (K : filter (fun e : coord * A => coord_eqb (fst e) c) (combine inds vals) = []).
      { apply filter_none_in. intros [d x] Hd. cbn [fst]. apply coord_eqb_neq. intros ->.
        apply N1. eapply in_combine_l; eauto. }
      rewrite K. destruct H as [H|H]; [injection H as ->; reflexivity|].
      exfalso. apply N1. eapply in_combine_l; eauto.
    - destruct H as [H|H]; [injection H as -> ->; rewrite coord_eqb_refl in E; discriminate|]. apply (IH _ H).
  Qed.

  Lemma values_at_le1 (inds : list coord) (vals : list A) c :
    NoDup inds -> values_at c (combine inds vals) = []
                  \/ exists v, values_at c (combine inds vals) = [v] /\ In (c, v) (combine inds vals).
  Proof.
    intros N. destruct (values_at c (combine inds vals)) as [|x l] eqn:E; [left; reflexivity|right].
    assert (H : In x (values_at c (combine inds vals))) by (rewrite E; left; reflexivity).
    unfold values_at in H. apply in_map_iff in H as [[d v] [Ev H]]. apply filter_In in H as [H Hd].
    cbn [fst snd] in *. apply coord_eqb_eq in Hd. subst. exists x. split; [|exact H].
    rewrite <- E. apply values_at_unique; auto.
  Qed.
End Sparse.
