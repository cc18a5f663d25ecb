(** Proofs about sliding windows, the reported change of embeddings and runs of the full
    experiment without an iteration limit. *)
From Coq Require Import ZArith QArith List Bool Lia Permutation Ring_theory Ring.
From Verif Require Import Prelude Prelude_proofs DataPrep_model Eval_model Tensor_model Tensor_spec Tensor_proofs Matrix_model Matrix_main LinAlg_model Stream_model
  Dynamic_model Dynamic_spec Dynamic_main.
Import ListNotations.
Open Scope Z_scope.

Lemma qsum_right l : (qsum l == fold_right Qplus 0 l)%Q.
Proof.
  unfold qsum. assert (G : forall l a, (fold_left Qplus l a == a + fold_right Qplus 0 l)%Q).
  { induction l0 as [|x l0 IH]; intro a; cbn [fold_left fold_right]; [now rewrite Qplus_0_r|]. rewrite IH. ring. }
  rewrite G. ring.
Qed.

Lemma window_slice arr i w : (i + w <= length arr)%nat ->
  firstn w (skipn i arr) = map (fun j => nth (i + j) arr 0%Q) (seq 0 w).
Proof.
  revert i. induction w as [|w IH]; intros i L; auto.
  assert (E : skipn i arr = nth i arr 0%Q :: skipn (S i) arr).
  { clear -L. revert i L. induction arr as [|a arr IHa]; intros [|i] L; cbn in *; auto; try lia. rewrite (IHa i) by lia. reflexivity. }
  rewrite E. cbn [firstn seq map]. rewrite Nat.add_0_r. f_equal. rewrite IH by lia. rewrite <- seq_shift, map_map.
  apply map_ext. intro j. f_equal. lia.
Qed.

Lemma sliding_main (arr : list Q) (w : nat) :
  ((length arr < w)%nat -> forall mode, sliding_window arr w mode = Ok arr) /\
  ((w <= length arr)%nat ->
    sliding_window arr w WOther = Err NotImplementedError /\
    (exists out, sliding_window arr w WSum = Ok out /\ length out = (length arr - w + 1)%nat /\
       forall i, (i + w <= length arr)%nat -> exists x, nth_error out i = Some x /\ (x == window_total arr i w)%Q) /\
    ((0 < w)%nat -> exists out, sliding_window arr w WMean = Ok out /\ length out = (length arr - w + 1)%nat /\
       forall i, (i + w <= length arr)%nat -> exists x, nth_error out i = Some x /\
         (x * inject_Z (Z.of_nat w) == window_total arr i w)%Q)).
Proof.
  unfold sliding_window. split.
  - intros L mode. now rewrite (proj2 (Nat.ltb_lt _ _) L).
  - intro L. rewrite (proj2 (Nat.ltb_ge _ _) L). split; [reflexivity|].
    assert (N : forall (f : nat -> Q) i, (i + w <= length arr)%nat ->
       nth_error (map f (seq 0 (length arr - w + 1))) i = Some (f i)).
    { intros f i Hi. erewrite map_nth_error; [reflexivity|].
      rewrite (nth_error_nth' _ 0%nat) by (rewrite seq_length; lia). f_equal. rewrite seq_nth by lia. reflexivity. }
    split; [|intro W]; cbn [bind]; eexists; (split; [reflexivity|]); (split; [now rewrite map_length, seq_length|]); intros i Hi;
      rewrite N by auto; eexists; (split; [reflexivity|]); rewrite window_slice by auto.
    + apply qsum_right.
    + rewrite map_length, seq_length, qsum_right. unfold window_total. field.
      intro Z0. assert (0 < Z.of_nat w)%Z by lia. unfold Qeq, inject_Z in Z0. cbn in Z0. lia.
Qed.

Section Change.
  Context {A V : Type} (zero one : A) (add mul sub : A -> A -> A) (opp : A -> A).
  Variable Rth : ring_theory zero one add mul sub opp eq.
  Add Ring Ar : Rth.
  Variables (norm : mat A -> V) (div : V -> V -> V).

  Lemma bget_in (m : mat A) i j : (i < mr m)%nat -> (j < mc m)%nat -> bget zero m i j = mget zero m i j.
  Proof.
    intros Hi Hj. unfold bget. destruct (Nat.eqb_spec (mr m) 1), (Nat.eqb_spec (mc m) 1); f_equal; lia.
  Qed.
  Lemma build_ext r c (f g : nat -> nat -> A) : (forall i j, (i < r)%nat -> (j < c)%nat -> f i j = g i j) -> build r c f = build r c g.
  Proof.
    intro E. apply (mat_ext zero); try apply build_wf; auto. cbn [mr mc build]. intros i j Hi Hj.
    rewrite !build_get by auto. auto.
  Qed.
  Lemma msub_same (a b : mat A) : mr a = mr b -> mc a = mc b -> msub zero sub a b = Ok (difference zero sub a b).
  Proof.
    intros Er Ec. unfold msub, broadcast, bdim. rewrite <- Er, <- Ec, !Nat.eqb_refl. cbn [bind]. f_equal.
    apply build_ext. intros i j Hi Hj. rewrite !bget_in by lia. reflexivity.
  Qed.

  Lemma padded_same (old new : mat A) : mwf old -> (mr old <= mr new)%nat -> mc old = mc new ->
    pad_rows zero old new = Ok (padded zero old new).
  Proof.
    intros W L Ec. unfold pad_rows. destruct (Nat.ltb_spec (mr old) (mr new)) as [L'|L'].
    - unfold set_block. rewrite !Nat.eqb_refl, <- Ec, Nat.eqb_refl. cbn [orb andb]. f_equal. cbn [zeros build mr mc]. unfold padded.
      rewrite <- Ec. apply build_ext. intros i j Hi Hj.
      cbn [Nat.leb andb]. rewrite !Nat.add_0_l, (proj2 (Nat.ltb_lt _ _) Hj), andb_true_r, !Nat.sub_0_r, andb_true_r.
      destruct (Nat.ltb_spec i (mr old)).
      + rewrite bget_in by auto. reflexivity.
      + unfold zeros. rewrite build_get by lia. reflexivity.
    - f_equal. apply (mat_ext zero); auto; try apply build_wf; cbn [padded build mr mc]; try lia.
      intros i j Hi Hj. unfold padded. rewrite build_get by lia. now rewrite (proj2 (Nat.ltb_lt _ _) Hi).
  Qed.

  Lemma change_main (old new : mat A) x : mwf old -> (mr old <= mr new)%nat -> mc old = mc new ->
    (user_change zero sub norm div old new x <->
     x = div (norm (opposite zero opp (padded zero old new))) (norm (difference zero sub new (padded zero old new)))).
  Proof.
    intros W L Ec. rewrite (change_compute zero sub norm div). rewrite padded_same by auto. cbn [bind].
    rewrite msub_same by reflexivity. cbn [bind]. unfold rel_norm. rewrite msub_same by reflexivity. cbn [bind].
    assert (E : difference zero sub (difference zero sub new (padded zero old new)) new = opposite zero opp (padded zero old new)).
    { unfold difference at 1. unfold opposite. cbn [padded difference build mr mc]. apply build_ext. intros i j Hi Hj.
      unfold difference. rewrite build_get by auto. ring. }
    rewrite E. split; [intro H; now injection H|intros ->; reflexivity].
  Qed.

  (** An unchanged model is divided by the norm of the zero matrix. *)
  Lemma unchanged_main (m : mat A) x : mwf m ->
    (user_change zero sub norm div m m x <->
     x = div (norm (opposite zero opp m)) (norm (zeros zero (mr m) (mc m)))).
  Proof.
    intro W. rewrite change_main by auto.
    assert (E : padded zero m m = m).
    { pose proof (padded_same m m W (le_n _) eq_refl) as P. unfold pad_rows in P. rewrite Nat.ltb_irrefl in P. now injection P. }
    rewrite E. assert (E2 : difference zero sub m m = zeros zero (mr m) (mc m)).
    { unfold difference, zeros. apply build_ext. intros. ring. }
    rewrite E2. tauto.
  Qed.

  (** Fewer rows than before: broadcasting fails unless one row is left. *)
  Lemma shrink_main (old new : mat A) x : (mr new < mr old)%nat -> mr new <> 1%nat -> mr old <> 1%nat -> ~ user_change zero sub norm div old new x.
  Proof.
    intros L N N' H. rewrite (change_compute zero sub norm div) in H. unfold pad_rows in H.
    destruct (Nat.ltb_spec (mr old) (mr new)); [lia|]. cbn [bind] in H. unfold msub, broadcast, bdim in H.
    destruct (Nat.eqb_spec (mr new) (mr old)); [lia|]. destruct (Nat.eqb_spec (mr new) 1); [lia|].
    destruct (Nat.eqb_spec (mr old) 1); [lia|discriminate].
  Qed.
End Change.

(** The squared norm of the opposite is that of the matrix. *)
Lemma sum_squares_opposite (m : mat Q) : mwf m -> (sum_squares (opposite 0%Q Qopp m) == sum_squares m)%Q.
Proof.
  intro W. assert (E : mdat (opposite 0%Q Qopp m) = map Qopp (mdat m)).
  { unfold opposite, build, mwf in *. cbn [mdat].
    transitivity (map Qopp (flat_map (fun i => map (mget 0%Q m i) (seq 0 (mc m))) (seq 0 (mr m)))).
    - rewrite !flat_map_concat_map, concat_map, map_map. f_equal. apply map_ext. intro i. now rewrite map_map.
    - f_equal. assert (X : build (mr m) (mc m) (mget 0%Q m) = m).
      { apply (mat_ext 0%Q); auto; try apply build_wf. cbn [build mr mc]. intros. now apply build_get. }
      exact (f_equal mdat X). }
  unfold sum_squares. rewrite E. generalize (mdat m). induction l as [|x l IH]; cbn [map fold_right]; [reflexivity|].
  rewrite IH. ring.
Qed.

Section Full.
  Context {S D A V T : Type} (zero : A) (sub : A -> A -> A).
  Variables (norm : mat A -> V) (div : V -> V -> V) (minus_one : V) (clock : nat -> T).
  Variables (m : api S D A) (grow : D -> list row -> res D) (chunk_mode : bool).

  Lemma unlimited_main sort_counts initial_users left st0 initial stream :
    (forall l, Permutation (sort_counts l) l) ->
    (forall s, recommend m s [] true = Ok []) -> (1 < length stream)%nat ->
    forall dyn, dynamical_experiment zero sub norm div minus_one clock m grow
      (get_users_stability sort_counts initial_users left 0) chunk_mode 0 st0 initial stream <> Ok dyn.
  Proof.
    intros P R L.
    assert (E : get_users_stability sort_counts initial_users left 0 = []).
    { unfold get_users_stability. cbn [firstn].
      assert (F : filter (fun r : Z * Z => memZ (snd r) [] && memZ (fst r) (unique initial_users)) left = []).
      { induction left as [|r l IH]; auto. }
      rewrite F. cbn. pose proof (P []) as P0. apply Permutation_sym, Permutation_nil in P0. rewrite P0. reflexivity. }
    rewrite E. apply no_test_users_main; auto.
  Qed.
End Full.

Section Shrinking.
  Context {S D A V T : Type} (zero one : A) (add mul sub : A -> A -> A) (opp : A -> A).
  Variables (norm : mat A -> V) (div : V -> V -> V) (minus_one : V).
  Variables (m : api S D A) (grow : D -> list row -> res D) (test_users : list Z) (chunk_mode : bool).
  Lemma shrinking_main st0 initial stream n (H : history) t :
    runs zero sub norm div minus_one m grow test_users chunk_mode st0 initial stream n H ->
    (Datatypes.S t < n)%nat ->
    ((mr (emb_u H (Datatypes.S t)) < mr (emb_u H t))%nat -> mr (emb_u H (Datatypes.S t)) = 1%nat \/ mr (emb_u H t) = 1%nat) /\
    ((mr (emb_v H (Datatypes.S t)) < mr (emb_v H t))%nat ->
       ((0 < t)%nat -> dv H t = minus_one) /\
       (t = 0%nat -> mr (emb_v H (Datatypes.S t)) = 1%nat \/ mr (emb_v H t) = 1%nat)).
  Proof.
    intros (_ & _ & _ & R) L. destruct (R t L) as (_ & U & I). split.
    - intro Lt. destruct (Nat.eq_dec (mr (emb_u H (Datatypes.S t))) 1); auto. destruct (Nat.eq_dec (mr (emb_u H t)) 1); auto.
      exfalso. eapply shrink_main; eauto.
    - intro Lt. unfold item_change in I. rewrite (proj2 (Nat.ltb_lt _ _) Lt), andb_true_r in I. split; intro Ht.
      + rewrite (proj2 (Nat.ltb_lt _ _) Ht) in I. exact I.
      + subst t. cbn [Nat.ltb Nat.leb] in I.
        destruct (Nat.eq_dec (mr (emb_v H 1)) 1); auto. destruct (Nat.eq_dec (mr (emb_v H 0)) 1); auto.
        exfalso. eapply shrink_main; eauto.
  Qed.
End Shrinking.
