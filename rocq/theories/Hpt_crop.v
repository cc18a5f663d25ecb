(** The earlier days of a cropped table are their own cropped table. *)
From Coq Require Import ZArith List Bool Lia Permutation Sorted.
From Verif Require Import Prelude Prelude_proofs DataPrep_model DataPrep_spec DataPrep_proofs History_model History_spec History_proofs Recommend_model Tirec_spec Seqx_spec.
From Verif Require History_main Tirec_stream Rex_book.
Import ListNotations.
Open Scope Z_scope.

Lemma sorted_key_ext {A} (key : A -> Z) : forall l l', StronglySorted Z.le (map key l) -> StronglySorted Z.le (map key l') ->
  (forall u, filter (fun x => key x =? u) l = filter (fun x => key x =? u) l') -> l = l'.
Proof.
  induction l as [|x l IH]; intros l' S S' H.
  - destruct l' as [|y l']; auto. specialize (H (key y)). cbn in H. rewrite Z.eqb_refl in H. discriminate.
  - destruct l' as [|y l']; [specialize (H (key x)); cbn in H; rewrite Z.eqb_refl in H; discriminate|].
    cbn [map] in S, S'. inversion S as [|? ? S1 F1]; subst. inversion S' as [|? ? S2 F2]; subst.
    rewrite Forall_forall in F1, F2.
    assert (I1 : In x (y :: l')).
    { apply (filter_In (fun z => key z =? key x)). rewrite <- H. cbn. rewrite Z.eqb_refl. now left. }
    assert (I2 : In y (x :: l)).
    { apply (filter_In (fun z => key z =? key y)). rewrite H. cbn. rewrite Z.eqb_refl. now left. }
    assert (E : key x = key y).
    { apply Z.le_antisymm.
      - destruct I2 as [->|I2]; [lia|]. apply F1. now apply in_map.
      - destruct I1 as [->|I1]; [lia|]. apply F2. now apply in_map. }
    assert (x = y).
    { pose proof (H (key x)) as Hx. cbn in Hx. rewrite Z.eqb_refl in Hx. rewrite E, Z.eqb_refl in Hx. congruence. }
    subst y. f_equal. apply IH; auto. intros u. specialize (H u). cbn in H. destruct (key x =? u); congruence.
Qed.

Lemma filter_filter_comm {A} (f g : A -> bool) l : filter f (filter g l) = filter g (filter f l).
Proof. induction l as [|x l IH]; cbn; auto. destruct (f x) eqn:F, (g x) eqn:G; cbn; rewrite ?F, ?G, IH; auto. Qed.

Lemma sorted_filter {A} (f : A -> bool) (R : A -> A -> Prop) l : StronglySorted R l -> StronglySorted R (filter f l).
Proof.
  induction 1 as [|x l S IH F]; cbn; [constructor|]. destruct (f x); auto. constructor; auto.
  rewrite Forall_forall in *. intros y Hy. apply filter_In in Hy. now apply F.
Qed.
Lemma sorted_map {A B} (f : A -> B) (R : B -> B -> Prop) l : StronglySorted R (map f l) <-> StronglySorted (fun x y => R (f x) (f y)) l.
Proof.
  induction l as [|x l IH]; cbn; split; intros H; try constructor; inversion H; subst.
  - now apply IH.
  - rewrite Forall_map in *. auto.
  - now apply IH.
  - rewrite Forall_map. auto.
Qed.

Section Down.
  (** A test on rows that, once it fails, fails for all later times. *)
  Variable g : row -> bool.
  Hypothesis down : forall x y, r_ts x <= r_ts y -> g y = true -> g x = true.

  Lemma prefix_from n0 : forall K n, length K = n -> StronglySorted (fun x y => r_ts x <= r_ts y) K ->
    filter (fun p : prow => g (p_row p)) (combine K (map Z.of_nat (seq n0 n))) = combine (filter g K) (map Z.of_nat (seq n0 (length (filter g K)))).
  Proof.
    intros K. revert n0. induction K as [|x K IH]; intros n0 n Hn S; cbn; auto. destruct n as [|n]; [discriminate|].
    injection Hn as Hn. inversion S as [|? ? S1 F1]; subst. cbn [seq map combine filter]. cbn [p_row fst].
    destruct (g x) eqn:E; cbn [filter].
    - cbn [length seq map combine]. f_equal. apply IH; auto.
    - assert (N : filter g K = []).
      { apply filter_none. intros y Hy. rewrite Forall_forall in F1. destruct (g y) eqn:Ey; auto.
        rewrite (down x y) in E; auto. }
      rewrite N. cbn. apply filter_none. intros [y q] Hy. apply in_combine_l in Hy. cbn. rewrite Forall_forall in F1.
      destruct (g y) eqn:Ey; auto. rewrite (down x y) in E; auto.
  Qed.
  Lemma prefix K : StronglySorted (fun x y => r_ts x <= r_ts y) K ->
    filter (fun p : prow => g (p_row p)) (combine K (zrange (length K))) = combine (filter g K) (zrange (length (filter g K))).
  Proof. intros S. unfold zrange. now apply prefix_from. Qed.

  Lemma sorted_lastn {A} (R : A -> A -> Prop) n l : StronglySorted R l -> StronglySorted R (lastn n l).
  Proof.
    intros S. destruct (lastn_suffix n l) as [pre E]. rewrite E in S. revert S. generalize (lastn n l). clear E.
    induction pre as [|x pre IH]; intros m S; auto. cbn in S. inversion S; subst. auto.
  Qed.

  Lemma own_crop rows L d : get_df_with_cropped_pos_column rows L true = Ok d ->
    let train := filter (fun p : prow => g (p_row p)) d in
    train <> [] -> get_df_with_cropped_pos_column (map p_row train) L true = Ok train.
  Proof.
    intros E train NE. destruct (History_main.crop_ok_hyps _ _ _ _ E) as [HL NR].
    destruct (crop_main rows L true HL NR) as [d0 [E0 [S0 H0]]]. assert (d0 = d) by congruence. subst d0.
    assert (NE' : map p_row train <> []) by (destruct train; [congruence|discriminate]).
    destruct (crop_main (map p_row train) L true HL NE') as [d' [E' [S' H']]]. rewrite E'. f_equal.
    apply (sorted_key_ext (fun p => r_user (p_row p))); auto.
    - apply sorted_map, sorted_filter, sorted_map. exact S0.
    - intros u. destruct (H0 u) as [x [Hx Fx]]. destruct (H' u) as [x' [Hx' Fx']]. cbv beta in *. rewrite Fx'.
      unfold train. rewrite filter_filter_comm, Fx.
      assert (SK : StronglySorted (fun x y => r_ts x <= r_ts y) (lastn L x)) by (apply sorted_lastn; apply Hx).
      assert (EK : Nat.min (length x) L = length (lastn L x)) by (rewrite lastn_length; lia). rewrite EK. rewrite (prefix _ SK).
      assert (ER : rows_of u (map p_row train) = filter g (lastn L x)).
      { unfold rows_of. rewrite History_main.filter_map_comm. unfold train. rewrite filter_filter_comm, Fx, EK, (prefix _ SK). apply Tirec_stream.map_fst_combine. rewrite zrange_length. lia. }
      assert (x' = filter g (lastn L x)).
      { apply (Tirec_stream.StableSorted_unique r_ts (rows_of u (map p_row train))); auto. rewrite ER. split; [|split; [reflexivity|auto]].
        now apply sorted_filter. }
      subst x'. assert (LE : (length (filter g (lastn L x)) <= L)%nat).
      { pose proof (filter_length_le g (lastn L x)) as LF. rewrite lastn_length in LF. lia. }
      rewrite lastn_all, Nat.min_l; auto.
  Qed.

  (** The earlier rows of a cropped table are among its rows. *)
  Lemma own_full rows L d u : get_df_with_cropped_pos_column rows L true = Ok d ->
    length (rows_of u (map p_row (filter (fun p : prow => g (p_row p)) d))) = L -> length (rows_of u (map p_row d)) = L.
  Proof.
    intros E H. destruct (Rex_book.cropped_user _ _ _ u E) as [x [_ [_ Ex]]].
    assert (LE : (length (rows_of u (map p_row d)) <= L)%nat) by (rewrite Ex, lastn_length; lia).
    assert (LE2 : (length (rows_of u (map p_row (filter (fun p : prow => g (p_row p)) d))) <= length (rows_of u (map p_row d)))%nat).
    { unfold rows_of. rewrite !History_main.filter_map_comm, !map_length, filter_filter_comm. apply filter_length_le. }
    lia.
  Qed.
End Down.
