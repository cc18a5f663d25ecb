(** Assembly for C29-C32: agreement of sparse and dense forms, cores and schedules. *)
From Coq Require Import ZArith List Bool Lia Permutation Ring ArithRing.
From Verif Require Import Prelude Prelude_proofs Tensor_model Tensor_spec Tensor_proofs Tensor_sums Tensor_main.
Import ListNotations.
Open Scope nat_scope.

(** Every cell of an unfolding is the image of a tensor cell. *)
Lemma cell_of shape mode n a b i j : modes mode n a b ->
  i < pick shape n -> j < pick shape a * pick shape b ->
  exists c, in_range shape c /\ pick c n = i /\ pick c a + pick shape a * pick c b = j.
Proof.
  intros M Hi Hj.
  assert (HA : pick shape a <> 0) by (intros Z0; rewrite Z0 in Hj; lia).
  pose proof (Nat.div_mod j _ HA) as D. pose proof (Nat.mod_upper_bound j _ HA) as U.
  assert (V : j / pick shape a < pick shape b) by (apply Nat.div_lt_upper_bound; auto).
  destruct M.
  - exists (i, j mod pick shape 1, j / pick shape 1). cbn [pick c0 c1 c2 fst snd] in *.
    split; [repeat split; auto|]. split; [reflexivity|]. lia.
  - exists (j mod pick shape 0, i, j / pick shape 0). cbn [pick c0 c1 c2 fst snd] in *.
    split; [repeat split; auto|]. split; [reflexivity|]. lia.
  - exists (j mod pick shape 0, j / pick shape 0, i). cbn [pick c0 c1 c2 fst snd] in *.
    split; [repeat split; auto|]. split; [reflexivity|]. lia.
Qed.

Section Agree.
  Context {A : Type} (zero : A) (add : A -> A -> A).

  Lemma unfold_agree_main (inds : list coord) (vals : list A) shape mode m t d :
    (forall x, add x zero = x) ->
    NoDup inds -> Forall (in_range shape) inds ->
    unfold_sparse inds vals shape mode = Ok m ->
    sparse_to_dense_tensor zero inds vals shape = Ok t ->
    unfold_dense zero t mode = Ok d ->
    coo_r m = mr d /\ coo_c m = mc d
    /\ forall i j, i < mr d -> j < mc d -> coo_cell zero add m i j = mget zero d i j.
  Proof.
    intros Z0 N F HS HT HD.
    destruct (modes_cases mode) as [[n [a [b M]]]|B].
    2:{ rewrite (proj1 (dense_bad_mode zero _ B)) in HD. discriminate. }
    assert (L : length inds = length vals).
    { destruct (Nat.eq_dec (length inds) (length vals)); auto.
      rewrite unfold_sparse_bad in HS by auto. discriminate. }
    destruct (proj1 (sparse_to_dense_main zero inds vals shape)) as [t' [E [W [S P]]]].
    { split; [lia|]. rewrite <- L, firstn_all. exact F. }
    rewrite HT in E. injection E as <-.
    destruct (unfold_dense_main zero t mode n a b W M) as [d' [E [WD [R [C Q]]]]].
    rewrite HD in E. injection E as <-.
    destruct (unfold_sparse_main inds vals shape mode n a b M L) as [_ [_ U]].
    destruct (U m HS) as [UR [UC _]].
    split; [rewrite UR, R, S; reflexivity|]. split; [rewrite UC, C, S; reflexivity|].
    rewrite R, C, S. intros i j Hi Hj.
    destruct (cell_of shape mode n a b i j M Hi Hj) as [c [Hc [<- <-]]].
    unfold coo_cell. rewrite (coo_values inds vals shape mode n a b m c M F Hc HS).
    specialize (Q c). rewrite S in Q. rewrite (Q Hc), (P c Hc).
    destruct (values_at_le1 inds vals c N) as [->|[v [-> _]]]; [reflexivity|]. apply Z0.
  Qed.

  (** With duplicates the two forms agree exactly at cells whose last value is the sum. *)
  Lemma unfold_agree_cell_main (inds : list coord) (vals : list A) shape mode n a b m t d c :
    modes mode n a b -> Forall (in_range shape) inds -> in_range shape c ->
    unfold_sparse inds vals shape mode = Ok m ->
    sparse_to_dense_tensor zero inds vals shape = Ok t ->
    unfold_dense zero t mode = Ok d ->
    coo_cell zero add m (pick c n) (pick c a + pick shape a * pick c b)
    = sum zero add (values_at c (combine inds vals))
    /\ mget zero d (pick c n) (pick c a + pick shape a * pick c b)
       = last (values_at c (combine inds vals)) zero.
  Proof.
    intros M F Hc HS HT HD.
    assert (L : length inds = length vals).
    { destruct (Nat.eq_dec (length inds) (length vals)); auto.
      rewrite unfold_sparse_bad in HS by auto. discriminate. }
    destruct (proj1 (sparse_to_dense_main zero inds vals shape)) as [t' [E [W [S P]]]].
    { split; [lia|]. rewrite <- L, firstn_all. exact F. }
    rewrite HT in E. injection E as <-.
    destruct (unfold_dense_main zero t mode n a b W M) as [d' [E [WD [R [C Q]]]]].
    rewrite HD in E. injection E as <-.
    split.
    - unfold coo_cell. rewrite (coo_values inds vals shape mode n a b m c M F Hc HS). reflexivity.
    - specialize (Q c). rewrite S in Q. rewrite (Q Hc). apply (P c Hc).
  Qed.
End Agree.

Section Cores.
  Context {A : Type} (zero : A) (add mul : A -> A -> A).
  Notation tget := (tget zero).

  Lemma core_iteration_owned (es : list (coord * A)) u1 u2 u3 i : i < mc u1 ->
    owned i (core_iteration zero mul es u1 u2 u3 i) (mc u1, mc u2, mc u3).
  Proof.
    intros Hi. apply Forall_forall. intros w H. unfold core_iteration in H.
    apply in_flat_map in H as [e [_ H]]. apply in_flat_map in H as [j [Hj H]].
    apply in_map_iff in H as [k [<- Hk]]. apply in_seq in Hj, Hk. unfold in_range.
    cbn [fst snd c0 c1 c2]. lia.
  Qed.

  Lemma core_iteration_at (es : list (coord * A)) u1 u2 u3 c : in_range (mc u1, mc u2, mc u3) c ->
    values_at c (core_iteration zero mul es u1 u2 u3 (c0 c)) = map (term zero mul u1 u2 u3 c) es.
  Proof.
    intros [H0 [H1 H2]]. cbn [c0 c1 c2 fst snd] in H0, H1, H2. unfold core_iteration.
    rewrite values_at_flat_map, <- flat_map_singleton. apply flat_map_ext_in. intros e _.
    rewrite (values_at_block (fun j k => mul (mul (mul (snd e) (mget zero u1 (c0 (fst e)) (c0 c))) (mget zero u2 (c1 (fst e)) j))
                      (mget zero u3 (c2 (fst e)) k))); auto. rewrite Nat.eqb_refl. reflexivity.
  Qed.

  (** Threads beyond the loop range do nothing. *)
  Definition cut (n : nat) (p : nat -> list (coord * A)) (i : nat) : list (coord * A) :=
    if i <? n then p i else [].

  Lemma map_cut n p (f : list (coord * A) -> thread (A := A)) :
    map (fun i => f (p i)) (seq 0 n) = map (fun i => f (cut n p i)) (seq 0 n).
  Proof.
    apply map_ext_in. intros i Hi. apply in_seq in Hi. unfold cut.
    replace (i <? n) with true by (symmetry; apply Nat.ltb_lt; lia). reflexivity.
  Qed.

  Lemma run_cells p start n sched : twf start -> c0 (tshape start) = n ->
    (forall i, i < n -> owned i (p i) (tshape start)) ->
    let m := run zero add sched (mkMachine start (map (fun i => mkThread (p i) None) (seq 0 n))) in
    finished m ->
    twf (memory m) /\ tshape (memory m) = tshape start
    /\ forall c, in_range (tshape start) c ->
         tget (memory m) c = fold_left add (values_at c (p (c0 c))) (tget start c).
  Proof.
    intros W N O m F. unfold m in *. rewrite (map_cut n p (fun l => mkThread l None)) in *.
    assert (OC : forall i, owned i (cut n p i) (tshape start)).
    { intros i. unfold cut. destruct (i <? n) eqn:E; [apply O, Nat.ltb_lt; auto|constructor]. }
    destruct (run_result zero add mul (cut n p) start n sched _ W N OC eq_refl F) as [R1 [R2 R3]].
    - split; [exact R1|]. split; [exact R2|]. intros c Hc. rewrite (R3 c Hc). unfold cut.
      replace (c0 c <? n) with true by (symmetry; apply Nat.ltb_lt; rewrite <- N; apply Hc). reflexivity.
  Qed.

  Lemma parallel_core_main inds (vals : list A) u1 u2 u3 :
    ((exists core start, construct_core zero add mul inds vals u1 u2 u3 = Ok core
        /\ core_parallel_start zero mul inds vals u1 u2 u3 = Ok start
        /\ forall sched, finished (run zero add sched start) -> memory (run zero add sched start) = core)
     /\ length vals <= length inds
     /\ Forall (in_range (mr u1, mr u2, mr u3)) (firstn (length vals) inds))
    \/ (construct_core zero add mul inds vals u1 u2 u3 = Err OutOfBounds
        /\ core_parallel_start zero mul inds vals u1 u2 u3 = Err OutOfBounds
        /\ ~ (length vals <= length inds
              /\ Forall (in_range (mr u1, mr u2, mr u3)) (firstn (length vals) inds))).
  Proof.
    destruct (entries_in_iff inds vals (mr u1, mr u2, mr u3)) as [I [[es E]|E]].
    - left. destruct (proj1 (I es) E) as [H1 [H2 H3]]. split; [|split; auto].
      destruct (core_cell_exact zero add mul inds vals u1 u2 u3 es E) as [core [EC [WC [SC PC]]]].
      exists core. unfold core_parallel_start. rewrite E. cbn [bind]. eexists. split; [exact EC|].
      split; [reflexivity|]. intros sched F.
      destruct (run_cells (core_iteration zero mul es u1 u2 u3) (zeros3 zero (mc u1, mc u2, mc u3)) (mc u1) sched
                  (zeros3_wf _ _) eq_refl (fun i Hi => core_iteration_owned es u1 u2 u3 i Hi) F) as [R1 [R2 R3]].
      apply (ten_ext zero); auto; [rewrite SC; exact R2|].
      intros c Hc. rewrite R2 in Hc. rewrite (R3 c Hc), tget_zeros3, core_iteration_at, PC; auto.
      rewrite SC. exact Hc.
    - right. unfold construct_core, core_parallel_start. rewrite E. cbn [bind].
      split; [reflexivity|]. split; [reflexivity|]. intros [H1 H2].
      rewrite (proj2 (I (combine inds vals))) in E by auto. discriminate.
  Qed.

  (** Completion of a schedule. *)
  Lemma run_work sched : forall m j t,
    (forall t, In t (threads m) -> loaded t <> None -> todo t <> []) ->
    nth_error (threads m) j = Some t ->
    (forall t, In t (threads (run zero add sched m)) -> loaded t <> None -> todo t <> [])
    /\ exists t', nth_error (threads (run zero add sched m)) j = Some t'
         /\ work t' = work t - steps_of j sched.
  Proof.
    induction sched as [|i s IH]; intros m j t OKL E.
    - split; [exact OKL|]. exists t. split; [exact E|]. cbn. lia.
    - destruct (step_work zero add m i j t OKL E) as [OKL' [t1 [E1 W1]]].
      destruct (IH (step zero add m i) j t1 OKL' E1) as [OK2 [t2 [E2 W2]]].
      split; [exact OK2|]. exists t2. split; [exact E2|]. rewrite W2, W1. unfold steps_of. cbn [filter].
      destruct (Nat.eqb j i); cbn [length]; lia.
  Qed.

  Lemma run_length sched : forall m, length (threads (run zero add sched m)) = length (threads m).
  Proof.
    induction sched as [|i s IH]; intros m; [reflexivity|].
    change (length (threads (run zero add s (step zero add m i))) = length (threads m)). rewrite IH.
    unfold step. destruct (nth_error (threads m) i) as [[[|[c x] r] [v|]]|]; auto; cbn [threads]; apply set_nth_length.
  Qed.

  Lemma finished_iff_steps (p : nat -> list (coord * A)) start n sched :
    finished (run zero add sched (mkMachine start (map (fun i => mkThread (p i) None) (seq 0 n))))
    <-> forall i, i < n -> 2 * length (p i) <= steps_of i sched.
  Proof.
    set (m0 := mkMachine start (map (fun i => mkThread (p i) None) (seq 0 n))).
    assert (OKL : forall t, In t (threads m0) -> loaded t <> None -> todo t <> []).
    { intros t Ht. cbn [m0 threads] in Ht. apply in_map_iff in Ht as [i [<- _]]. cbn. congruence. }
    assert (E : forall i, i < n -> nth_error (threads m0) i = Some (mkThread (p i) None)).
    { intros i Hi. cbn [m0 threads]. rewrite (map_nth_error (fun i => mkThread (p i) None) i (seq 0 n) (d := i)); auto.
      rewrite (nth_error_nth' (seq 0 n) 0) by (rewrite seq_length; auto). rewrite seq_nth; auto. }
    assert (LN : length (threads (run zero add sched m0)) = n).
    { rewrite run_length. cbn [m0 threads]. rewrite map_length, seq_length. reflexivity. }
    unfold finished. rewrite Forall_forall. split.
    - intros F i Hi. destruct (run_work sched m0 i _ OKL (E i Hi)) as [_ [t [Et Wt]]].
      specialize (F t (nth_error_In _ _ Et)).
      unfold work in Wt. rewrite F in Wt. cbn [todo loaded length] in Wt. lia.
    - intros H t Ht. apply In_nth_error in Ht as [i Ei].
      assert (Hi : i < n) by (rewrite <- LN; apply nth_error_Some; congruence).
      destruct (run_work sched m0 i _ OKL (E i Hi)) as [OK2 [t' [Et Wt]]].
      rewrite Ei in Et. injection Et as <-. specialize (H i Hi). specialize (OK2 t (nth_error_In _ _ Ei)).
      unfold work in Wt. cbn [todo loaded] in Wt.
      destruct (todo t) as [|w r]; [reflexivity|]. cbn [length] in Wt. destruct (loaded t); lia.
  Qed.

  Lemma length_flat_map_const {X Y} (f : X -> list Y) n l :
    (forall x, In x l -> length (f x) = n) -> length (flat_map f l) = length l * n.
  Proof.
    induction l as [|x l IH]; intros H; [reflexivity|]. cbn [flat_map length].
    rewrite app_length, (H x (or_introl eq_refl)), IH; [lia|]. intros; apply H; right; auto.
  Qed.

  Lemma parallel_core_completes_main inds (vals : list A) u1 u2 u3 start sched :
    core_parallel_start zero mul inds vals u1 u2 u3 = Ok start ->
    (finished (run zero add sched start)
     <-> forall i, i < mc u1 -> 2 * (length vals * (mc u2 * mc u3)) <= steps_of i sched).
  Proof.
    unfold core_parallel_start. destruct (entries_in_iff inds vals (mr u1, mr u2, mr u3)) as [I [[es E]|E]];
      rewrite E; cbn [bind]; [|discriminate].
    intros H. injection H as <-. rewrite (finished_iff_steps (core_iteration zero mul es u1 u2 u3)).
    destruct (proj1 (I es) E) as [H1 [_ ->]].
    assert (LE : length (combine inds vals) = length vals) by (rewrite combine_length; lia).
    assert (LL : forall i, length (core_iteration zero mul (combine inds vals) u1 u2 u3 i) = length vals * (mc u2 * mc u3)).
    { intros i. unfold core_iteration. rewrite (length_flat_map_const _ (mc u2 * mc u3)), LE; auto.
      intros e _. rewrite (length_flat_map_const _ (mc u3)), seq_length; auto.
      intros j _. rewrite map_length, seq_length. reflexivity. }
    split; intros H i Hi; specialize (H i Hi); rewrite LL in *; exact H.
  Qed.

  (** The dense loop visits the cells in the order of dense_to_sparse_tensor. *)
  Lemma dense_iteration_core (t : ten A) u1 u2 u3 i :
    dense_iteration zero mul t u1 u2 u3 i
    = core_iteration zero mul (map (fun c => (c, tget t c)) (cells (tshape t))) u1 u2 u3 i.
  Proof.
    unfold dense_iteration, core_iteration, cells. rewrite flat_map_map, flat_map_flat_map.
    apply flat_map_ext_in. intros i1 _. rewrite flat_map_flat_map.
    apply flat_map_ext_in. intros i2 _. rewrite flat_map_map. apply flat_map_ext_in. intros i3 _. reflexivity.
  Qed.

  Lemma dense_entries (t : ten A) (u1 u2 u3 : mat A) inds vals :
    dense_to_sparse_tensor zero t = (inds, vals) ->
    (c0 (tshape t) <= mr u1 /\ c1 (tshape t) <= mr u2 /\ c2 (tshape t) <= mr u3) ->
    entries_in inds vals (mr u1, mr u2, mr u3) = Ok (map (fun c => (c, tget t c)) (cells (tshape t))).
  Proof.
    rewrite dense_to_sparse_cells. intros H [H0 [H1 H2]]. injection H as <- <-.
    apply entries_in_iff. rewrite map_length. split; [lia|]. rewrite firstn_all. split.
    - apply Forall_forall. intros c Hc. apply cells_In in Hc as [C0 [C1 C2]]. unfold in_range. cbn [c0 c1 c2 fst snd] in *.
      unfold c0, c1, c2 in *. cbn [fst snd] in *. lia.
    - rewrite combine_map_self. reflexivity.
  Qed.

  Lemma parallel_dense_main (t : ten A) (u1 u2 u3 : mat A) inds vals :
    dense_to_sparse_tensor zero t = (inds, vals) ->
    (c0 (tshape t) <= mr u1 /\ c1 (tshape t) <= mr u2 /\ c2 (tshape t) <= mr u3 ->
     exists core start, construct_core zero add mul inds vals u1 u2 u3 = Ok core
       /\ core_parallel_dense_start zero mul t u1 u2 u3 = Ok start
       /\ forall sched, finished (run zero add sched start) -> memory (run zero add sched start) = core).
  Proof.
    intros HD HB. pose proof (dense_entries t u1 u2 u3 inds vals HD HB) as E.
    destruct (core_cell_exact zero add mul inds vals u1 u2 u3 _ E) as [core [EC [WC [SC PC]]]].
    exists core. unfold core_parallel_dense_start.
    replace ((c0 (tshape t) <=? mr u1) && (c1 (tshape t) <=? mr u2) && (c2 (tshape t) <=? mr u3)) with true.
    2:{ symmetry. rewrite !andb_true_iff, !Nat.leb_le. tauto. }
    eexists. split; [exact EC|]. split; [reflexivity|]. intros sched F.
    set (es := map (fun c => (c, tget t c)) (cells (tshape t))) in *.
    destruct (run_cells (dense_iteration zero mul t u1 u2 u3) (zeros3 zero (mc u1, mc u2, mc u3)) (mc u1) sched
                (zeros3_wf _ _) eq_refl) as [R1 [R2 R3]]; [|exact F|].
    { intros i Hi. rewrite dense_iteration_core. apply core_iteration_owned. exact Hi. }
    apply (ten_ext zero); auto; [rewrite SC; exact R2|].
    intros c Hc. rewrite R2 in Hc. rewrite (R3 c Hc), tget_zeros3, dense_iteration_core, core_iteration_at, PC; auto.
    rewrite SC. exact Hc.
  Qed.

  Lemma core_bit_exact_main inds (vals : list A) u1 u2 u3 core :
    construct_core zero add mul inds vals u1 u2 u3 = Ok core ->
    twf core /\ tshape core = (mc u1, mc u2, mc u3)
    /\ forall i j k, i < mc u1 -> j < mc u2 -> k < mc u3 ->
       tget core (i, j, k)
       = fold_left add (map (fun e => mul (mul (mul (snd e) (mget zero u1 (c0 (fst e)) i))
                                              (mget zero u2 (c1 (fst e)) j))
                                         (mget zero u3 (c2 (fst e)) k)) (combine inds vals)) zero.
  Proof.
    intros H. destruct (entries_in_iff inds vals (mr u1, mr u2, mr u3)) as [I [[es E]|E]].
    2:{ unfold construct_core in H. rewrite E in H. discriminate. }
    destruct (core_cell_exact zero add mul inds vals u1 u2 u3 es E) as [core' [EC [WC [SC PC]]]].
    rewrite H in EC. injection EC as <-. split; auto. split; auto. intros i j k Hi Hj Hk.
    destruct (proj1 (I es) E) as [_ [_ ->]]. apply (PC (i, j, k)). rewrite SC. repeat split; auto.
  Qed.
End Cores.

Section RingCore.
  Context {A : Type} (zero one : A) (add mul sub : A -> A -> A) (opp : A -> A)
          (RT : ring_theory zero one add mul sub opp (@eq A)).
  Add Ring ARC : RT.
  Notation tget := (tget zero).
  Notation sumn := (sumn zero add).

  (** Contraction of a tensor given by its cells with three factors. *)
  Lemma core_contraction_main inds (vals : list A) u1 u2 u3 core i j k :
    construct_core zero add mul inds vals u1 u2 u3 = Ok core ->
    i < mc u1 -> j < mc u2 -> k < mc u3 ->
    tget core (i, j, k)
    = sumn (mr u1) (fun x => sumn (mr u2) (fun y => sumn (mr u3) (fun z =>
        mul (mul (mul (sum zero add (values_at (x, y, z) (combine inds vals))) (mget zero u1 x i))
                 (mget zero u2 y j)) (mget zero u3 z k)))).
  Proof.
    intros H Hi Hj Hk. destruct (core_bit_exact_main zero add mul inds vals u1 u2 u3 core H) as [_ [_ P]].
    rewrite (P i j k Hi Hj Hk), (fold_left_sum zero one add mul sub opp RT).
    destruct (entries_in_iff inds vals (mr u1, mr u2, mr u3)) as [I [[es E]|E]].
    2:{ unfold construct_core in H. rewrite E in H. discriminate. }
    pose proof (entries_range _ _ _ _ E) as F. destruct (proj1 (I es) E) as [_ [_ ->]].
    set (g := fun c : coord => mul (mul (mget zero u1 (c0 c) i) (mget zero u2 (c1 c) j)) (mget zero u3 (c2 c) k)).
    transitivity (sum zero add (map (fun e => mul (snd e) (g (fst e))) (combine inds vals))).
    { rewrite (sum_ext zero add _ (fun e => mul (snd e) (g (fst e)))); [ring|]. intros e _. unfold g. ring. }
    rewrite (sum_entries zero one add mul sub opp RT (mr u1, mr u2, mr u3) _ g F).
    rewrite (sum_cells zero one add mul sub opp RT). cbn [c0 c1 c2 fst snd].
    apply sumn_ext. intros x _. apply sumn_ext. intros y _. apply sumn_ext. intros z _. unfold g.
    cbn [c0 c1 c2 fst snd]. ring.
  Qed.

  Lemma core_sparse_dense_main inds (vals : list A) u1 u2 u3 core (t : ten A) start sched :
    construct_core zero add mul inds vals u1 u2 u3 = Ok core ->
    tshape t = (mr u1, mr u2, mr u3) ->
    (forall c, in_range (tshape t) c -> tget t c = sum zero add (values_at c (combine inds vals))) ->
    core_parallel_dense_start zero mul t u1 u2 u3 = Ok start ->
    finished (run zero add sched start) ->
    memory (run zero add sched start) = core.
  Proof.
    intros H S T HS F.
    destruct (dense_to_sparse_tensor zero t) as [di dv] eqn:ED.
    destruct (parallel_dense_main zero add mul t u1 u2 u3 di dv ED) as [core' [start' [EC [ES P]]]].
    { rewrite S. cbn [c0 c1 c2 fst snd]. lia. }
    rewrite HS in ES. injection ES as <-. rewrite (P sched F).
    destruct (core_bit_exact_main zero add mul _ _ _ _ _ _ H) as [W1 [S1 _]].
    destruct (core_bit_exact_main zero add mul _ _ _ _ _ _ EC) as [W2 [S2 _]].
    apply (ten_ext zero); auto; [congruence|]. rewrite S2. intros [[i j] k] [Hi [Hj Hk]]. cbn [c0 c1 c2 fst snd] in *.
    rewrite (core_contraction_main _ _ _ _ _ _ i j k EC), (core_contraction_main _ _ _ _ _ _ i j k H); auto.
    apply sumn_ext. intros x Hx. apply sumn_ext. intros y Hy. apply sumn_ext. intros z Hz.
    rewrite dense_to_sparse_cells in ED. injection ED as <- <-.
    assert (R : in_range (tshape t) (x, y, z)) by (rewrite S; repeat split; auto).
    rewrite combine_map_self, (values_at_cells (tget t)); auto. rewrite (T _ R).
    rewrite sum_cons, sum_nil. ring.
  Qed.
End RingCore.
