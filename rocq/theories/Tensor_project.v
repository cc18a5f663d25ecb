(** Assembly for C34-C35: projected unfoldings and elementwise reconstruction. *)
From Coq Require Import ZArith List Bool Lia Permutation Ring ArithRing.
From Verif Require Import Prelude Prelude_proofs Tensor_model Tensor_spec Tensor_proofs Tensor_sums Tensor_main
  Tensor_core Tensor_dot.
Import ListNotations.
Open Scope nat_scope.

(** Loops whose body may raise. *)
Lemma foldM_spec {X R} (f : X -> R -> res R) (g : X -> R -> R) (chk : X -> bool) l :
  (forall x r, In x l -> if chk x then f x r = Ok (g x r) else exists e, f x r = Err e) ->
  forall r, if forallb chk l
            then fold_left (fun acc x => bind acc (f x)) l (Ok r) = Ok (fold_left (fun r x => g x r) l r)
            else exists e, fold_left (fun acc x => bind acc (f x)) l (Ok r) = Err e.
Proof.
  intros H. assert (EE : forall l e, fold_left (fun (acc : res R) x => bind acc (f x)) l (Err e) = Err e).
  { induction l0 as [|x l0 IH]; intros e; [reflexivity|]. cbn [fold_left bind]. apply IH. }
  induction l as [|x l IH]; intros r; [reflexivity|]. cbn [forallb fold_left bind].
  pose proof (H x r (or_introl eq_refl)) as Hx. destruct (chk x); cbn [andb].
  - rewrite Hx. apply IH. intros y r' Hy. apply H. right; auto.
  - destruct Hx as [e ->]. exists e. apply EE.
Qed.

Section Rows.
  Context {A : Type} (zero : A) (add mul : A -> A -> A).
  Notation mget := (mget zero).

  Lemma add_row_prefix vec r : forall n (m : mat A), mwf m -> r < mr m -> n <= mc m ->
    let m' := for_ n (fun c m => madd zero add m r c (nth c vec zero)) m in
    mwf m' /\ mr m' = mr m /\ mc m' = mc m
    /\ forall i j, j < mc m ->
         mget m' i j = if (i =? r) && (j <? n) then add (mget m i j) (nth j vec zero) else mget m i j.
  Proof.
    induction n as [|n IH]; intros m W Hr Hn.
    - cbn. repeat split; auto. intros i j _. rewrite andb_false_r. reflexivity.
    - cbv zeta. unfold for_ in *. rewrite seq_S, fold_left_app. cbn [fold_left Nat.add].
      destruct (IH m W Hr ltac:(lia)) as [W' [R' [C' P]]].
      set (m1 := fold_left _ (seq 0 n) m) in *.
      split; [apply mset_wf; exact W'|]. split; [exact R'|]. split; [exact C'|].
      intros i j Hj. unfold madd. rewrite mget_mset; [|auto|lia|lia|lia].
      destruct (r =? i) eqn:ER; cbn [andb].
      + apply Nat.eqb_eq in ER. subst i. rewrite Nat.eqb_refl. cbn [andb].
        destruct (n =? j) eqn:EN.
        * apply Nat.eqb_eq in EN. subst j. rewrite P by auto. rewrite Nat.eqb_refl. cbn [andb].
          replace (n <? n) with false by (symmetry; apply Nat.ltb_irrefl).
          replace (n <? S n) with true by (symmetry; apply Nat.ltb_lt; lia). reflexivity.
        * apply Nat.eqb_neq in EN. rewrite P by auto. rewrite Nat.eqb_refl. cbn [andb].
          destruct (j <? n) eqn:E1; destruct (j <? S n) eqn:E2; auto;
            rewrite ?Nat.ltb_lt, ?Nat.ltb_ge in *; lia.
      + rewrite P by auto. rewrite Nat.eqb_sym, ER. reflexivity.
  Qed.

  Lemma add_row_spec (m : mat A) r vec : mwf m -> r < mr m ->
    mwf (add_row zero add m r vec) /\ mr (add_row zero add m r vec) = mr m
    /\ mc (add_row zero add m r vec) = mc m
    /\ forall i j, j < mc m ->
         mget (add_row zero add m r vec) i j = if i =? r then add (mget m i j) (nth j vec zero) else mget m i j.
  Proof.
    intros W Hr. destruct (add_row_prefix vec r (mc m) m W Hr (le_n _)) as [H1 [H2 [H3 H4]]].
    split; [exact H1|]. split; [exact H2|]. split; [exact H3|]. intros i j Hj. unfold add_row. rewrite H4 by auto.
    replace (j <? mc m) with true by (symmetry; apply Nat.ltb_lt; auto). rewrite andb_true_r. reflexivity.
  Qed.

  (** A sequence of row additions. *)
  Lemma rows_spec {X} (row : X -> nat) (vec : X -> list A) l : forall (m : mat A),
    mwf m -> Forall (fun x => row x < mr m) l ->
    let m' := fold_left (fun m x => add_row zero add m (row x) (vec x)) l m in
    mwf m' /\ mr m' = mr m /\ mc m' = mc m
    /\ forall i j, j < mc m ->
         mget m' i j = fold_left add (map (fun x => nth j (vec x) zero) (filter (fun x => row x =? i) l)) (mget m i j).
  Proof.
    induction l as [|x l IH]; intros m W F; [cbn; repeat split; auto|].
    inversion F as [|? ? Fx F']; subst. destruct (add_row_spec m (row x) (vec x) W Fx) as [A1 [A2 [A3 A4]]].
    cbv zeta. cbn [fold_left].
    destruct (IH (add_row zero add m (row x) (vec x)) A1) as [I1 [I2 [I3 I4]]]; [rewrite A2; exact F'|].
    cbv zeta in I1, I2, I3, I4. split; [exact I1|]. split; [congruence|]. split; [congruence|].
    intros i j Hj. rewrite I4 by congruence. rewrite A4 by auto. cbn [filter]. rewrite (Nat.eqb_sym i).
    destruct (row x =? i); reflexivity.
  Qed.

  Lemma nth_flat_map_const {X Y} (f : X -> list Y) m dx dy : forall l i j,
    (forall x, In x l -> length (f x) = m) -> i < length l -> j < m ->
    nth (i * m + j) (flat_map f l) dy = nth j (f (nth i l dx)) dy.
  Proof.
    induction l as [|x l IH]; intros i j H Hi Hj; [cbn in Hi; lia|].
    pose proof (H x (or_introl eq_refl)) as Lx. cbn [flat_map].
    destruct i as [|i].
    - cbn [Nat.mul Nat.add nth]. rewrite app_nth1 by lia. reflexivity.
    - rewrite app_nth2 by lia. replace (S i * m + j - length (f x)) with (i * m + j) by lia.
      rewrite IH; [reflexivity| |cbn in Hi; lia|auto]. intros; apply H; right; auto.
  Qed.

  Lemma mrow_length (m : mat A) i : length (mrow zero m i) = mc m.
  Proof. unfold mrow. rewrite map_length, seq_length. reflexivity. Qed.

  Lemma mrow_nth (m : mat A) i j : j < mc m -> nth j (mrow zero m i) zero = mget m i j.
  Proof.
    intros H. unfold mrow. rewrite (nth_indep _ zero (mget m i 0)) by (rewrite map_length, seq_length; auto).
    rewrite (map_nth (mget m i)). rewrite seq_nth; auto.
  Qed.

  Lemma kron_nth (u2 u1 : mat A) i2 i1 k2 k1 : k2 < mc u2 -> k1 < mc u1 ->
    nth (k2 * mc u1 + k1) (kron_vec mul (mrow zero u2 i2) (mrow zero u1 i1)) zero
    = mul (mget u2 i2 k2) (mget u1 i1 k1).
  Proof.
    intros H2 H1. unfold kron_vec.
    rewrite (nth_flat_map_const _ (mc u1) zero zero).
    - rewrite (mrow_nth u2) by auto.
      rewrite (nth_indep _ zero (mul (mget u2 i2 k2) zero)) by (rewrite map_length, mrow_length; auto).
      rewrite map_nth, mrow_nth; auto.
    - intros x _. rewrite map_length, mrow_length. reflexivity.
    - rewrite mrow_length. auto.
    - auto.
  Qed.

  Lemma project_length (q : mat A) v : length (project zero add mul q v) = mc q.
  Proof. unfold project. rewrite map_length, seq_length. reflexivity. Qed.

  Lemma project_nth (q : mat A) v j : j < mc q ->
    nth j (project zero add mul q v) zero = sum_upto zero add (mr q) (fun k => mul (mget q k j) (nth k v zero)).
  Proof.
    intros H. unfold project. set (f := fun c => _).
    rewrite (nth_indep _ zero (f 0)) by (rewrite map_length, seq_length; auto).
    rewrite (map_nth f), seq_nth; auto.
  Qed.
End Rows.

Section Project.
  Context {A : Type} (zero one : A) (add mul sub : A -> A -> A) (opp : A -> A)
          (RT : ring_theory zero one add mul sub opp (@eq A)).
  Add Ring ARP : RT.
  Notation mget := (mget zero).
  Notation sum := (sum zero add).
  Notation sumn := (sumn zero add).

  Notation kron_q := (kron_q zero add mul).
  Notation tucker := (tucker zero add mul).

  Lemma project_kron (q u1 u2 : mat A) i1 i2 j : mc u2 * mc u1 = mr q -> j < mc q ->
    nth j (project zero add mul q (kron_vec mul (mrow zero u2 i2) (mrow zero u1 i1))) zero
    = kron_q q u1 u2 i1 i2 j.
  Proof.
    intros Q Hj. rewrite (project_nth zero add mul) by auto.
    rewrite (sum_upto_sumn zero one add mul sub opp RT), <- Q.
    rewrite (sumn_mul zero one add mul sub opp RT). unfold Tensor_spec.kron_q.
    apply sumn_ext. intros k2 H2. apply sumn_ext. intros k1 H1.
    rewrite (kron_nth zero mul) by auto. ring.
  Qed.

  Lemma nth_map_mul v vec j n : length vec = n -> j < n -> nth j (map (mul v) vec) zero = mul v (nth j vec zero).
  Proof.
    intros L H. rewrite (nth_indep _ zero (mul v zero)) by (rewrite map_length; lia). apply map_nth.
  Qed.

  Lemma seq_chunks per k : flat_map (fun s => map (fun li => s * per + li) (seq 0 per)) (seq 0 k) = seq 0 (k * per).
  Proof. apply flat_map_blocks. Qed.

  Definition step_ok (vals : list A) (shape : coord) (u1 u2 : mat A) (md a b : nat) (inds : list coord) (i : nat) : bool :=
    let c := nth i inds (0, 0, 0) in
    (pick c a <? mr u1) && (pick c b <? mr u2) && (i <? length vals) && (pick c md <? pick shape md).

  Lemma forallb_map {X Y} (f : X -> Y) p l : forallb p (map f l) = forallb (fun x => p (f x)) l.
  Proof. induction l; cbn; congruence. Qed.

  Lemma forallb_flat_map {X Y} (f : X -> list Y) p l : forallb p (flat_map f l) = forallb (fun x => forallb p (f x)) l.
  Proof. induction l as [|x l IH]; [reflexivity|]. cbn. rewrite forallb_app. congruence. Qed.

  Lemma forallb_andb {X} (p q : X -> bool) l : forallb (fun x => p x && q x) l = forallb p l && forallb q l.
  Proof.
    induction l as [|x l IH]; [reflexivity|]. cbn. rewrite IH.
    destruct (p x), (q x), (forallb p l), (forallb q l); reflexivity.
  Qed.

  Lemma forallb_ext_in {X} (p q : X -> bool) l : (forall x, In x l -> p x = q x) -> forallb p l = forallb q l.
  Proof.
    induction l as [|x l IH]; intros H; [reflexivity|]. cbn. rewrite (H x (or_introl eq_refl)), IH; auto.
    intros; apply H; right; auto.
  Qed.

  Lemma chunk_nth per st (inds : list coord) li d : li < per -> nth li (firstn per (skipn st inds)) d = nth (st + li) inds d.
  Proof.
    intros H. rewrite <- (firstn_skipn st inds) at 2.
    revert st inds li H. induction per as [|per IH]; intros st inds li H; [lia|].
    destruct (le_lt_dec (length inds) st) as [L|L].
    - rewrite firstn_skipn, skipn_all2 by auto. rewrite firstn_nil. rewrite !nth_overflow; auto; cbn; lia.
    - rewrite firstn_skipn. clear IH.
      assert (E : nth li (firstn (S per) (skipn st inds)) d = nth li (skipn st inds) d).
      { generalize (skipn st inds). intros l. revert li H. generalize (S per). intros n. revert l.
        induction n as [|n IHn]; intros l li H; [lia|]. destruct l as [|x l]; [reflexivity|].
        destruct li; [reflexivity|]. cbn. apply IHn. lia. }
      rewrite E. clear. revert inds. induction st as [|st IH]; intros inds; [reflexivity|].
      destruct inds as [|x inds]; [destruct li; reflexivity|]. cbn [skipn Nat.add nth]. apply IH.
  Qed.

  Lemma list_as_nth {X} (l : list X) d : l = map (fun i => nth i l d) (seq 0 (length l)).
  Proof.
    induction l as [|x l IH]; [reflexivity|]. cbn [length seq map nth]. f_equal.
    rewrite <- seq_shift, map_map. exact IH.
  Qed.

  Lemma double_tensor_fold cap is_one inds (vals : list A) shape q mode n a b u1 u2 :
    modes mode n a b -> 0 < cap -> inds <> [] ->
    (forall v, is_one v = true -> v = one) ->
    let per := Nat.min cap (length inds) in
    let p := length inds / per * per in
    let ok := (mc u2 * mc u1 =? mr q) && forallb (step_ok vals shape u1 u2 n a b inds) (seq 0 p) in
    let vec := fun i => let c := nth i inds (0, 0, 0) in
       let w := project zero add mul q (kron_vec mul (mrow zero u2 (pick c b)) (mrow zero u1 (pick c a))) in
       if is_one (nth i vals zero) then w else map (mul (nth i vals zero)) w in
    if ok
    then sparse_tensor_double_tensor_cap zero add mul cap is_one inds vals shape q mode u1 u2
         = Ok (fold_left (fun m i => add_row zero add m (pick (nth i inds (0, 0, 0)) n) (vec i)) (seq 0 p)
                 (zeros2 zero (pick shape n) (mc q)))
    else exists e, sparse_tensor_double_tensor_cap zero add mul cap is_one inds vals shape q mode u1 u2 = Err e.
  Proof.
    intros M HC NE ONE per p ok vec. destruct (other_modes_ok _ _ _ _ M) as [E1 E2].
    unfold sparse_tensor_double_tensor_cap. rewrite E1. cbn [bind]. rewrite E2. fold per.
    assert (LI : 0 < length inds) by (destruct inds; [congruence|cbn; lia]).
    assert (HP : 0 < per) by (unfold per; lia).
    replace (per =? 0) with false by (symmetry; apply Nat.eqb_neq; lia).
    assert (PL : length inds / per * per <= length inds) by (rewrite Nat.mul_comm; apply Nat.mul_div_le; lia).
    set (chunkf := fun stp => firstn per (skipn (stp * per) inds)).
    set (inner_chk := fun i => (i <? length vals) && (pick (nth i inds (0, 0, 0)) n <? pick shape n)).
    set (chk := fun stp => forallb (fun c => (pick c a <? mr u1) && (pick c b <? mr u2)) (chunkf stp)
                           && (mc u2 * mc u1 =? mr q)
                           && forallb (fun li => inner_chk (stp * per + li)) (seq 0 per)).
    set (g := fun stp m => fold_left (fun m li => add_row zero add m (pick (nth (stp * per + li) inds (0, 0, 0)) n) (vec (stp * per + li)))
                             (seq 0 per) m).
    assert (CL : forall stp, In stp (seq 0 (length inds / per)) -> length (chunkf stp) = per).
    { intros stp Hs. apply in_seq in Hs. unfold chunkf. rewrite firstn_length, skipn_length.
      assert ((stp + 1) * per <= length inds / per * per) by (apply Nat.mul_le_mono_r; lia). lia. }
    match goal with |- if ok then fold_left (fun acc stp => bind acc (@?f stp)) _ _ = _ else _ => set (body := f) end.
    assert (STEP : forall stp m, In stp (seq 0 (length inds / per)) ->
              if chk stp then body stp m = Ok (g stp m) else exists e, body stp m = Err e).
    { intros stp m Hs. unfold chk, body. fold (chunkf stp).
      destruct (forallb (fun c => (pick c a <? mr u1) && (pick c b <? mr u2)) (chunkf stp)); cbn [negb andb]; [|eauto].
      destruct (mc u2 * mc u1 =? mr q); cbn [negb andb]; [|eauto].
      pose proof (foldM_spec
        (fun li (result : mat A) =>
            match nth_error vals (stp * per + li) with
            | Some v =>
              if negb (pick (nth (stp * per + li) inds (0, 0, 0)) n <? pick shape n) then Err IndexError
              else Ok (add_row zero add result (pick (nth (stp * per + li) inds (0, 0, 0)) n)
                     (if is_one v then nth li (map (fun c => project zero add mul q (kron_vec mul (mrow zero u2 (pick c b)) (mrow zero u1 (pick c a)))) (chunkf stp)) []
                      else map (mul v) (nth li (map (fun c => project zero add mul q (kron_vec mul (mrow zero u2 (pick c b)) (mrow zero u1 (pick c a)))) (chunkf stp)) [])))
            | None => Err IndexError
            end)
        (fun li m => add_row zero add m (pick (nth (stp * per + li) inds (0, 0, 0)) n) (vec (stp * per + li)))
        (fun li => inner_chk (stp * per + li)) (seq 0 per)) as K.
      apply K. intros li r Hli. apply in_seq in Hli. unfold inner_chk.
      destruct (nth_error vals (stp * per + li)) as [v|] eqn:EV.
      - assert (LV : stp * per + li < length vals) by (apply nth_error_Some; congruence).
        replace (stp * per + li <? length vals) with true by (symmetry; apply Nat.ltb_lt; auto). cbn [andb].
        destruct (pick (nth (stp * per + li) inds (0, 0, 0)) n <? pick shape n); cbn [negb]; [|eauto].
        f_equal. f_equal. unfold vec. rewrite (nth_error_nth _ _ zero EV).
        assert (W : nth li (map (fun c => project zero add mul q (kron_vec mul (mrow zero u2 (pick c b)) (mrow zero u1 (pick c a)))) (chunkf stp)) []
                    = project zero add mul q (kron_vec mul (mrow zero u2 (pick (nth (stp * per + li) inds (0, 0, 0)) b))
                                                           (mrow zero u1 (pick (nth (stp * per + li) inds (0, 0, 0)) a)))).
        { set (F := fun c => project _ _ _ _ _).
          rewrite (nth_indep _ [] (F (0, 0, 0))) by (rewrite map_length, CL; auto; lia).
          rewrite (map_nth F). unfold chunkf. rewrite chunk_nth by lia. reflexivity. }
        rewrite W. reflexivity.
      - apply nth_error_None in EV. replace (stp * per + li <? length vals) with false by (symmetry; apply Nat.ltb_ge; auto).
        cbn [andb]. eauto. }
    pose proof (foldM_spec body g chk _ STEP (zeros2 zero (pick shape n) (mc q))) as K.
    assert (EQ : forallb chk (seq 0 (length inds / per)) = ok).
    { unfold ok, chk, p. rewrite <- seq_chunks, forallb_flat_map.
      assert (K1 : forall stp, In stp (seq 0 (length inds / per)) ->
        forallb (fun c => (pick c a <? mr u1) && (pick c b <? mr u2)) (chunkf stp) && (mc u2 * mc u1 =? mr q)
          && forallb (fun li => inner_chk (stp * per + li)) (seq 0 per)
        = (mc u2 * mc u1 =? mr q) && forallb (step_ok vals shape u1 u2 n a b inds) (map (fun li => stp * per + li) (seq 0 per))).
      { intros stp Hs. rewrite (list_as_nth (chunkf stp) (0, 0, 0)), (CL stp Hs), !forallb_map.
        rewrite (andb_comm (forallb _ _)), <- andb_assoc. f_equal. rewrite <- forallb_andb.
        apply forallb_ext_in. intros li Hli. apply in_seq in Hli. unfold step_ok, inner_chk, chunkf.
        rewrite chunk_nth by lia. rewrite !andb_assoc. reflexivity. }
      rewrite (forallb_ext_in _ _ _ K1), forallb_andb.
      destruct (mc u2 * mc u1 =? mr q); cbn [andb].
      - replace (forallb (fun _ => true) (seq 0 (length inds / per))) with true; [reflexivity|].
        symmetry. apply forallb_forall. auto.
      - assert (DZ : length inds / per <> 0).
        { intros Z0. apply Nat.div_small_iff in Z0; unfold per in *; lia. }
        destruct (length inds / per); [congruence|]. reflexivity. }
    rewrite EQ in K. destruct ok; [|exact K]. refine (eq_trans K _). f_equal. unfold p. rewrite <- seq_chunks.
    clear. generalize (seq 0 (length inds / per)). intros l. generalize (zeros2 zero (pick shape n) (mc q)).
    induction l as [|s l IH]; intros m; [reflexivity|]. cbn [fold_left flat_map]. rewrite fold_left_app.
    rewrite IH. f_equal. unfold g. clear. revert m. generalize (seq 0 per). intros l.
    induction l as [|x l IH]; intros m; [reflexivity|]. cbn [fold_left map]. apply IH.
  Qed.

  Lemma firstn_nth_seq {X} (l : list X) d p : p <= length l -> firstn p l = map (fun i => nth i l d) (seq 0 p).
  Proof.
    revert l. induction p as [|p IH]; intros l H; [reflexivity|]. destruct l as [|x l]; [cbn in H; lia|].
    cbn [firstn seq map nth]. f_equal. rewrite <- seq_shift, map_map. apply IH. cbn in H. lia.
  Qed.

  Lemma processed_eq cap n : 0 < cap -> 0 < n -> n / Nat.min cap n * Nat.min cap n = processed cap n /\ processed cap n <= n.
  Proof.
    intros HC HN. unfold processed. destruct (n <=? cap) eqn:E.
    - apply Nat.leb_le in E. rewrite Nat.min_r by auto. rewrite Nat.div_same by lia. lia.
    - apply Nat.leb_gt in E. rewrite Nat.min_l by lia. split; [lia|]. apply Nat.mul_div_le. lia.
  Qed.

  Lemma double_tensor_main cap is_one inds (vals : list A) shape q mode n a b u1 u2 :
    modes mode n a b -> 0 < cap -> (forall v, is_one v = true -> v = one) ->
    let p := processed cap (length inds) in
    let fits := fun c => pick c n < pick shape n /\ pick c a < mr u1 /\ pick c b < mr u2 in
    let run := sparse_tensor_double_tensor_cap zero add mul cap is_one inds vals shape q mode u1 u2 in
    (inds = [] -> run = Err ZeroDivisionError)
    /\ (inds <> [] ->
        ((exists m, run = Ok m) <-> mc u2 * mc u1 = mr q /\ p <= length vals /\ Forall fits (firstn p inds))
        /\ forall m, run = Ok m ->
             mwf m /\ mr m = pick shape n /\ mc m = mc q
             /\ forall r j, r < pick shape n -> j < mc q ->
                  mget m r j
                  = sum (map (fun e => mul (snd e) (kron_q q u1 u2 (pick (fst e) a) (pick (fst e) b) j))
                             (filter (fun e => pick (fst e) n =? r) (firstn p (combine inds vals))))).
  Proof.
    intros M HC ONE p fits run. split.
    { intros ->. unfold run, sparse_tensor_double_tensor_cap. destruct (other_modes_ok _ _ _ _ M) as [E1 _].
      rewrite E1. cbn [bind length]. rewrite Nat.min_0_r. reflexivity. }
    intros NE. pose proof (double_tensor_fold cap is_one inds vals shape q mode n a b u1 u2 M HC NE ONE) as K.
    cbv zeta in K.
    assert (LI : 0 < length inds) by (destruct inds; [congruence|cbn; lia]).
    destruct (processed_eq cap (length inds) HC LI) as [PE PLE]. rewrite PE in K. fold p in K, PLE. fold run in K.
    assert (OKIFF : (mc u2 * mc u1 =? mr q) && forallb (step_ok vals shape u1 u2 n a b inds) (seq 0 p) = true
                    <-> mc u2 * mc u1 = mr q /\ p <= length vals /\ Forall fits (firstn p inds)).
    { rewrite andb_true_iff, Nat.eqb_eq. apply and_iff_compat_l.
      rewrite (firstn_nth_seq inds (0, 0, 0)) by auto. rewrite forallb_forall, Forall_map, Forall_forall.
      unfold step_ok, fits. split.
      - intros H. split.
        + destruct (le_lt_dec p (length vals)); auto. exfalso.
          assert (Hp : In (p - 1) (seq 0 p)) by (apply in_seq; lia).
          specialize (H _ Hp). rewrite !andb_true_iff, !Nat.ltb_lt in H. lia.
        + intros i Hi. specialize (H i Hi). rewrite !andb_true_iff, !Nat.ltb_lt in H. tauto.
      - intros [H1 H2] i Hi. specialize (H2 i Hi). apply in_seq in Hi. rewrite !andb_true_iff, !Nat.ltb_lt. repeat split; try tauto. lia. }
    destruct ((mc u2 * mc u1 =? mr q) && forallb (step_ok vals shape u1 u2 n a b inds) (seq 0 p)) eqn:EOK.
    2:{ destruct K as [e K]. split.
        - split; [intros [m H]; congruence|]. intros H. apply OKIFF in H. discriminate.
        - intros m H. congruence. }
    split. { split; [intros _; apply OKIFF; reflexivity|]. eauto. }
    destruct (proj1 OKIFF eq_refl) as [Q [PV F]].
    intros m H. rewrite K in H. injection H as <-.
    set (vec := fun i => let c := nth i inds (0, 0, 0) in
       let w := project zero add mul q (kron_vec mul (mrow zero u2 (pick c b)) (mrow zero u1 (pick c a))) in
       if is_one (nth i vals zero) then w else map (mul (nth i vals zero)) w).
    assert (FR : Forall (fun i => pick (nth i inds (0, 0, 0)) n < mr (zeros2 zero (pick shape n) (mc q))) (seq 0 p)).
    { rewrite (firstn_nth_seq inds (0, 0, 0)), Forall_map in F by auto.
      apply Forall_impl with (2 := F). intros i Hi. apply Hi. }
    destruct (rows_spec zero add (fun i => pick (nth i inds (0, 0, 0)) n) vec (seq 0 p) (zeros2 zero (pick shape n) (mc q))
                (zeros2_wf _ _ _) FR) as [R1 [R2 [R3 R4]]].
    split; [exact R1|]. split; [exact R2|]. split; [exact R3|]. intros r j Hr Hj.
    rewrite R4 by (exact Hj). rewrite mget_zeros2, (fold_left_sum zero one add mul sub opp RT).
    assert (LC : p <= length (combine inds vals)) by (rewrite combine_length; lia).
    rewrite (firstn_nth_seq (combine inds vals) ((0, 0, 0), zero)) by auto.
    rewrite !(sum_map_filter zero one add mul sub opp RT), map_map.
    match goal with |- add zero ?x = ?y => transitivity x; [ring|] end.
    apply sum_ext. intros i Hi. apply in_seq in Hi.
    assert (EN : nth i (combine inds vals) ((0, 0, 0), zero) = (nth i inds (0, 0, 0), nth i vals zero)).
    { clear - LC Hi PLE. rewrite combine_length in LC. assert (Hi1 : i < length inds) by lia. assert (Hi2 : i < length vals) by lia.
      clear - Hi1 Hi2. revert vals i Hi1 Hi2. induction inds as [|c l IH]; intros [|v vals] [|i] H1 H2; cbn in *; try lia; auto.
      apply IH; lia. }
    rewrite EN. cbn [fst snd]. destruct (pick (nth i inds (0, 0, 0)) n =? r); [|reflexivity].
    unfold vec. set (c := nth i inds (0, 0, 0)). set (v := nth i vals zero).
    destruct (is_one v) eqn:EO.
    - rewrite (project_kron q u1 u2) by auto. apply ONE in EO. rewrite EO. ring.
    - rewrite (nth_map_mul v _ j (mc q)) by (try apply project_length; auto). rewrite (project_kron q u1 u2) by auto. reflexivity.
  Qed.

  (** The version with a cache. *)
  Lemma double_tensor_old_main inds (vals : list A) shape q mode n a b u1 u2 m :
    modes mode n a b ->
    sparse_tensor_double_tensor_old zero add mul inds vals shape q mode u1 u2 = Ok m ->
    mwf m /\ mr m = pick shape n /\ mc m = mc q /\ length inds <= length vals
    /\ Forall (fun c => pick c n < pick shape n /\ pick c a < mr u1 /\ pick c b < mr u2) inds
    /\ forall r j, r < pick shape n -> j < mc q ->
         mget m r j
         = sum (map (fun e => mul (snd e) (kron_q q u1 u2 (pick (fst e) a) (pick (fst e) b) j))
                    (filter (fun e => pick (fst e) n =? r) (combine inds vals))).
  Proof.
    intros M. destruct (other_modes_ok _ _ _ _ M) as [E1 E2]. unfold sparse_tensor_double_tensor_old.
    rewrite E1. cbn [bind]. rewrite E2.
    destruct (length inds <=? length vals) eqn:EL; cbn [andb]; [|discriminate]. apply Nat.leb_le in EL.
    destruct (forallb _ inds) eqn:EF; [|discriminate].
    assert (F : Forall (fun c => pick c n < pick shape n /\ pick c a < mr u1 /\ pick c b < mr u2) inds).
    { apply Forall_forall. intros c Hc. rewrite forallb_forall in EF. specialize (EF c Hc).
      rewrite !andb_true_iff, !Nat.ltb_lt in EF. tauto. }
    destruct (negb (mc u2 * mc u1 =? mr q) && negb (length inds =? 0)) eqn:EQ; [discriminate|].
    set (P := fun i2 i1 => project zero add mul q (kron_vec mul (mrow zero u2 i2) (mrow zero u1 i1))).
    set (body := fun (e : coord * A) (s : mat A * list ((nat * nat) * list A)) => _).
    assert (CI : forall es s, (forall k w, cache_get k (snd s) = Some w -> w = P (fst k) (snd k)) ->
              fst (foreach es body s)
              = fold_left (fun m e => add_row zero add m (pick (fst e) n) (map (mul (snd e)) (P (pick (fst e) b) (pick (fst e) a)))) es (fst s)).
    { induction es as [|e es IH]; intros [m0 cache] HI; [reflexivity|]. cbn [foreach fold_left].
      change (fst (foreach es body (body e (m0, cache))) = fold_left (fun m e => add_row zero add m (pick (fst e) n) (map (mul (snd e)) (P (pick (fst e) b) (pick (fst e) a)))) es
         (add_row zero add m0 (pick (fst e) n) (map (mul (snd e)) (P (pick (fst e) b) (pick (fst e) a))))).
      cbn [snd] in HI.
      assert (B : exists cache', body e (m0, cache) = (add_row zero add m0 (pick (fst e) n) (map (mul (snd e)) (P (pick (fst e) b) (pick (fst e) a))), cache')
                 /\ forall k w, cache_get k cache' = Some w -> w = P (fst k) (snd k)).
      { unfold body. cbn [fst snd]. destruct (cache_get (pick (fst e) b, pick (fst e) a) cache) as [w|] eqn:EC.
        - rewrite EC. exists cache. split; [|exact HI]. rewrite (HI _ _ EC). reflexivity.
        - assert (G : cache_get (pick (fst e) b, pick (fst e) a)
                        ((pick (fst e) b, pick (fst e) a, P (pick (fst e) b) (pick (fst e) a)) :: cache)
                      = Some (P (pick (fst e) b) (pick (fst e) a))).
          { unfold cache_get. cbn [find fst]. unfold pair_eqb. rewrite !Nat.eqb_refl. reflexivity. }
          unfold P in G at 1. rewrite G. eexists. split; [reflexivity|]. intros k w.
          unfold cache_get. cbn [find fst]. destruct (pair_eqb (pick (fst e) b, pick (fst e) a) k) eqn:EP.
          + cbn. intros H. injection H as <-. unfold pair_eqb in EP. apply andb_true_iff in EP as [X Y].
            apply Nat.eqb_eq in X, Y. cbn [fst snd] in X, Y. rewrite <- X, <- Y. reflexivity.
          + apply HI. }
      destruct B as [cache' [-> HI']]. apply (IH (_, cache')). exact HI'. }
    intros H. injection H as <-. rewrite CI by (cbn; discriminate). cbn [fst].
    assert (FR : Forall (fun e : coord * A => pick (fst e) n < mr (zeros2 zero (pick shape n) (mc q))) (combine inds vals)).
    { apply Forall_forall. intros [c v] Hc. apply in_combine_l in Hc. rewrite Forall_forall in F. apply (F c Hc). }
    destruct (rows_spec zero add (fun e : coord * A => pick (fst e) n)
                (fun e => map (mul (snd e)) (P (pick (fst e) b) (pick (fst e) a))) (combine inds vals)
                (zeros2 zero (pick shape n) (mc q)) (zeros2_wf _ _ _) FR) as [R1 [R2 [R3 R4]]].
    split; [exact R1|]. split; [exact R2|]. split; [exact R3|]. split; [exact EL|]. split; [exact F|].
    intros r j Hr Hj. rewrite R4 by exact Hj. rewrite mget_zeros2, (fold_left_sum zero one add mul sub opp RT).
    match goal with |- add zero ?x = ?y => transitivity x; [ring|] end.
    apply sum_ext. intros e He. apply filter_In in He as [He _].
    assert (Q : mc u2 * mc u1 = mr q).
    { destruct (mc u2 * mc u1 =? mr q) eqn:X; [apply Nat.eqb_eq; auto|]. cbn [negb andb] in EQ.
      apply negb_false_iff, Nat.eqb_eq in EQ. destruct inds; [destruct He|discriminate]. }
    rewrite (nth_map_mul (snd e) _ j (mc q)) by (try apply project_length; auto).
    unfold P. rewrite (project_kron q u1 u2) by auto. reflexivity.
  Qed.


  Lemma tucker_element_main u1 u2 u3 core i j k :
    get_tucker_element zero add mul i j k u1 u2 u3 core = tucker u1 u2 u3 core i j k.
  Proof.
    unfold get_tucker_element, Tensor_spec.tucker.
    rewrite (for_body_sum zero one add mul sub opp RT (mc u1) _ (fun x => sumn (mc u2) (fun y => sumn (mc u3) (fun z =>
      mul (mul (tget zero core (x, y, z)) (mul (mget u1 i x) (mget u2 j y))) (mget u3 k z))))).
    - match goal with |- add zero ?x = ?y => transitivity x; [ring|] end.
      apply sumn_ext. intros x _. apply sumn_ext. intros y _. apply sumn_ext. intros z _. ring.
    - intros x s. apply (for_body_sum zero one add mul sub opp RT). intros y s'.
      apply (for_body_sum zero one add mul sub opp RT). reflexivity.
  Qed.

  Lemma tset_loop_spec (f : coord -> A) l : forall t : ten A, twf t -> Forall (in_range (tshape t)) l ->
    let t' := fold_left (fun t c => tset t c (f c)) l t in
    twf t' /\ tshape t' = tshape t
    /\ forall c, in_range (tshape t) c -> (In c l -> tget zero t' c = f c) /\ (~ In c l -> tget zero t' c = tget zero t c).
  Proof.
    induction l as [|d l IH]; intros t W F; [cbn; repeat split; auto; intros []|].
    inversion F as [|? ? Fd F']; subst. cbv zeta. cbn [fold_left].
    destruct (IH (tset t d (f d)) (tset_wf _ _ _ W) F') as [I1 [I2 I3]].
    split; [exact I1|]. split; [exact I2|]. intros c Hc. destruct (I3 c Hc) as [J1 J2].
    rewrite (tget_tset zero t d c (f d) W Fd Hc) in J2. split.
    - intros [->|H]; [|apply J1; auto].
      destruct (in_dec (fun x y => match bool_dec (coord_eqb x y) true with left e => left (proj1 (coord_eqb_eq x y) e)
                  | right ne => right (fun e => ne (proj2 (coord_eqb_eq x y) e)) end) c l) as [H|H]; [apply J1; auto|].
      rewrite J2 by auto. rewrite coord_eqb_refl. reflexivity.
    - intros H. assert (~ In c l) by (intros X; apply H; right; auto). rewrite J2 by auto.
      destruct (coord_eqb d c) eqn:E; [|reflexivity]. apply coord_eqb_eq in E. subst. exfalso. apply H. left; auto.
  Qed.

  Lemma reconstruction_main garbage u1 u2 u3 core t :
    length garbage = mr u1 * mr u2 * mr u3 ->
    construct_tensor_from_tucker zero add mul garbage u1 u2 u3 core = Ok t ->
    twf t /\ tshape t = (mr u1, mr u2, mr u3)
    /\ forall i j k, i < mr u1 -> j < mr u2 -> k < mr u3 -> tget zero t (i, j, k) = tucker u1 u2 u3 core i j k.
  Proof.
    intros G. unfold construct_tensor_from_tucker.
    destruct (core_covers core u1 u2 u3 || (mr u1 * mr u2 * mr u3 =? 0)); [|discriminate].
    intros H. injection H as H.
    set (f := fun c => get_tucker_element zero add mul (c0 c) (c1 c) (c2 c) u1 u2 u3 core).
    assert (E : t = fold_left (fun t c => tset t c (f c)) (cells (mr u1, mr u2, mr u3)) (mkTen (mr u1, mr u2, mr u3) garbage)).
    { rewrite <- H. unfold cells. cbn [c0 c1 c2 fst snd].
      apply for_actions. intros i s. apply for_actions. intros j s'. rewrite <- flat_map_singleton. apply for_actions.
      reflexivity. }
    destruct (tset_loop_spec f (cells (mr u1, mr u2, mr u3)) (mkTen (mr u1, mr u2, mr u3) garbage)) as [W [S P]].
    { unfold twf. cbn [tdat tshape c0 c1 c2 fst snd]. exact G. }
    { apply Forall_forall. apply cells_In. }
    rewrite <- E in W, S, P. split; [exact W|]. split; [exact S|]. intros i j k Hi Hj Hk.
    assert (R : in_range (mr u1, mr u2, mr u3) (i, j, k)) by (repeat split; auto).
    rewrite (proj1 (P (i, j, k) R)) by (apply cells_In; auto). unfold f. cbn [c0 c1 c2 fst snd].
    apply tucker_element_main.
  Qed.

  Lemma sq_err_main inds (vals : list A) u1 u2 u3 core x :
    sq_err zero add mul sub inds vals u1 u2 u3 core = Ok x ->
    x = sum (map (fun e => let d := sub (snd e) (tucker u1 u2 u3 core (c0 (fst e)) (c1 (fst e)) (c2 (fst e))) in mul d d)
                 (combine inds vals)).
  Proof.
    unfold sq_err. destruct (_ && _ && _); [|discriminate]. intros H. injection H as <-.
    unfold foreach.
    assert (K : forall l s, fold_left (fun s e => let d := sub (snd e) (get_tucker_element zero add mul (c0 (fst e)) (c1 (fst e)) (c2 (fst e)) u1 u2 u3 core) in add s (mul d d)) l s
       = add s (sum (map (fun e : coord * A => let d := sub (snd e) (tucker u1 u2 u3 core (c0 (fst e)) (c1 (fst e)) (c2 (fst e))) in mul d d) l))).
    { induction l as [|e l IH]; intros s; cbn [fold_left map]; [rewrite sum_nil; ring|].
      rewrite IH, sum_cons. cbv zeta. rewrite tucker_element_main. ring. }
    rewrite K. match goal with |- add zero ?x = ?y => transitivity x; [ring|reflexivity] end.
  Qed.

  Lemma core_covers_iff (core : ten A) (u1 u2 u3 : mat A) :
    core_covers core u1 u2 u3 = true
    <-> mc u1 = 0 \/ mc u2 = 0 \/ mc u3 = 0
        \/ (mc u1 <= c0 (tshape core) /\ mc u2 <= c1 (tshape core) /\ mc u3 <= c2 (tshape core)).
  Proof.
    unfold core_covers. rewrite orb_true_iff, !andb_true_iff, Nat.eqb_eq, !Nat.leb_le, !Nat.eq_mul_0. tauto.
  Qed.

  Lemma reconstruction_outcome_main garbage u1 u2 u3 core :
    ((exists t, construct_tensor_from_tucker zero add mul garbage u1 u2 u3 core = Ok t)
     <-> (core_covers core u1 u2 u3 = true \/ mr u1 = 0 \/ mr u2 = 0 \/ mr u3 = 0))
    /\ forall e, construct_tensor_from_tucker zero add mul garbage u1 u2 u3 core = Err e -> e = OutOfBounds.
  Proof.
    unfold construct_tensor_from_tucker.
    destruct (core_covers core u1 u2 u3) eqn:E; cbn [orb].
    { split; [split; eauto|congruence]. }
    destruct (mr u1 * mr u2 * mr u3 =? 0) eqn:E0.
    - apply Nat.eqb_eq in E0. rewrite !Nat.eq_mul_0 in E0. split; [split; [tauto|eauto]|congruence].
    - apply Nat.eqb_neq in E0. rewrite !Nat.eq_mul_0 in E0.
      split; [split; [intros [t H]; discriminate|intros [H|H]; [discriminate|tauto]]|congruence].
  Qed.

  Lemma sq_err_outcome_main inds (vals : list A) u1 u2 u3 core :
    (exists x, sq_err zero add mul sub inds vals u1 u2 u3 core = Ok x)
    <-> (length inds <= length vals /\ Forall (in_range (mr u1, mr u2, mr u3)) inds
         /\ (core_covers core u1 u2 u3 = true \/ inds = [])).
  Proof.
    unfold sq_err.
    assert (F : forallb (in_shape (mr u1, mr u2, mr u3)) inds = true <-> Forall (in_range (mr u1, mr u2, mr u3)) inds).
    { rewrite forallb_forall, Forall_forall. split; intros H c Hc; specialize (H c Hc); apply in_shape_iff; auto. }
    assert (L : (length inds =? 0) = true <-> inds = []).
    { rewrite Nat.eqb_eq. destruct inds; cbn; split; congruence. }
    destruct ((length inds <=? length vals) && forallb (in_shape (mr u1, mr u2, mr u3)) inds
              && (core_covers core u1 u2 u3 || (length inds =? 0))) eqn:E.
    - rewrite !andb_true_iff, orb_true_iff, Nat.leb_le, F, L in E. split; [tauto|eauto].
    - split; [intros [x H]; discriminate|]. intros [H1 [H2 H3]]. exfalso.
      rewrite <- not_true_iff_false in E. apply E. rewrite !andb_true_iff, orb_true_iff, Nat.leb_le, F, L. tauto.
  Qed.
End Project.
