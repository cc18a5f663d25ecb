(** Proofs about the number of iterations. *)
From Coq Require Import ZArith QArith List Bool Lia Sorting.Sorted Sorting.Permutation.
From Verif Require Import Prelude Prelude_proofs DataPrep_model History_model Tirec_model Tables_model Stream_model Stream_spec Stream_group Stream_main
  Tensor_model Matrix_model LinAlg_model Dynamic_model Dynamic_spec Dynamic_main Dynamic_extra Full_spec Seqx_spec Tdx_spec Pipe_model Pipe_spec Pipe_main
  Prow_spec Prow_main Iter_model Iter_spec.
From Verif Require Nobody_main.
Import ListNotations.
Open Scope Z_scope.

(** How many of [n] elements the slice takes. *)
Definition taken (hm : Z) (n : nat) : nat := if hm <? 0 then n - Z.to_nat (- hm) else Z.to_nat hm.
Lemma slice_taken {A} hm (l : list A) : slice_to hm l = firstn (taken hm (length l)) l.
Proof. unfold slice_to, taken. now destruct (hm <? 0). Qed.
Lemma taken_looked hm n : looked_at hm n (Nat.min (taken hm n) n).
Proof. unfold looked_at, taken. destruct (Z.ltb_spec hm 0); split; intro; lia. Qed.
Lemma processed_steps hm n k : processed hm n k -> k = n_steps hm n.
Proof. unfold processed, n_steps. intros (P1 & P2). destruct (Z.ltb_spec 0 hm); lia. Qed.

Lemma stability_slice_eq sc users left hm :
  stability_slice sc users left hm = get_users_stability sc users left (taken hm (length (nodup Z.eq_dec (map snd left)))).
Proof.
  unfold stability_slice, get_users_stability. rewrite slice_taken.
  assert (L : length (sort_stable Z.leb (unique (map snd left))) = length (nodup Z.eq_dec (map snd left))).
  { rewrite (Permutation_length (Permutation_sym (sort_stable_perm Z.leb (unique (map snd left))))). apply Permutation_length. apply NoDup_Permutation.
    - apply unique_NoDup.
    - apply NoDup_nodup.
    - intro x. rewrite unique_In, nodup_In. tauto. }
  rewrite L. reflexivity.
Qed.

Section Iter.
  Context {S D A V T : Type} (zero : A) (sub : A -> A -> A).
  Variable norm : mat A -> V.
  Variable div : V -> V -> V.
  Variable minus_one : V.
  Variable clock : nat -> T.
  Variable m : api S D A.
  Variable grow : D -> list row -> res D.
  Variable chunk_mode : bool.
  Variable entry : list row -> res D.
  Variable users_of : D -> list Z.
  Variable sort_days : list trow -> list trow.
  Variable sort_counts : list (Z * Z) -> list (Z * Z).
  Notation full := (full_dynamical_experiment zero sub norm div minus_one clock m grow chunk_mode entry users_of sort_days sort_counts).
  Notation any := (experiment_for zero sub norm div minus_one clock m grow chunk_mode entry users_of sort_days sort_counts).
  Notation run := (dynamical_experiment zero sub norm div minus_one clock m grow).

  Lemma any_full data cut hm_min hm st0 : 0 <= hm -> any data cut hm_min hm st0 = full data cut hm_min hm st0.
  Proof.
    intro H. unfold experiment_for, full_dynamical_experiment.
    destruct (prepare_data_for_experiment _ _ _ _ _ _) as [((i & s) & l)|e]; cbn [bind]; auto.
    destruct (entry (map content i)) as [d|e]; cbn [bind]; auto.
    unfold test_users_for, stability_users. rewrite stability_slice_eq. unfold taken. destruct (Z.ltb_spec hm 0); [lia|auto].
  Qed.

  Lemma run_agree test test' hm hm' st0 d s dyn dyn' :
    run test chunk_mode hm st0 d s = Ok dyn -> run test' chunk_mode hm' st0 d s = Ok dyn' ->
    (n_steps hm (length s) <= n_steps hm' (length s))%nat -> cut_after (n_steps hm (length s)) dyn dyn'.
  Proof.
    intros E E' L. destruct (experiments_agree zero sub norm div minus_one clock m grow chunk_mode test test' hm hm' st0 d s s dyn dyn' _ E E' (le_n _) L eq_refl) as (A1 & A2 & A3 & A4 & A5 & A6).
    apply (proj1 (experiment_main _ _ _ _ _ _ _ _ _ _ _ _ _ _ _)) in E as (H & R & ->).
    apply (proj1 (experiment_main _ _ _ _ _ _ _ _ _ _ _ _ _ _ _)) in E' as (H' & R' & ->).
    set (n := n_steps hm (length s)) in *. set (n' := n_steps hm' (length s)) in *.
    unfold cut_after. rewrite <- A1, <- A2, <- A3, <- A4, <- A5, <- A6. unfold reported.
    cbn [calculation_time d_hr d_mrr rnd_users rnd_items nd_users nd_items]. rewrite !series_firstn by lia. repeat split.
  Qed.

  Lemma run_shorter test hm hm' st0 d s dyn' :
    run test chunk_mode hm' st0 d s = Ok dyn' -> (n_steps hm (length s) <= n_steps hm' (length s))%nat ->
    exists dyn, run test chunk_mode hm st0 d s = Ok dyn /\ d_wji dyn = firstn (n_steps hm (length s) - 1) (d_wji dyn').
  Proof.
    intros E' L. apply (proj1 (experiment_main _ _ _ _ _ _ _ _ _ _ _ _ _ _ _)) in E' as (H' & (R1 & R2 & R3 & R4) & ->).
    exists (reported norm clock (n_steps hm (length s)) H'). split.
    - apply experiment_main. exists H'. split; auto. split; auto. split; auto. split; [intros; apply R3; auto; lia|intros; apply R4; lia].
    - unfold reported. cbn [d_wji]. rewrite series_firstn by lia. reflexivity.
  Qed.

  Lemma run_lengths test hm st0 d s dyn : run test chunk_mode hm st0 d s = Ok dyn ->
    let n := n_steps hm (length s) in
    length (calculation_time dyn) = (n + 1)%nat /\ length (d_hr dyn) = n /\ length (d_mrr dyn) = n /\ length (d_wji dyn) = (n - 1)%nat.
  Proof.
    intros E n. apply (proj1 (experiment_main _ _ _ _ _ _ _ _ _ _ _ _ _ _ _)) in E as (H & _ & ->).
    unfold reported. cbn [calculation_time d_hr d_mrr d_wji]. unfold series. rewrite !map_length, !seq_length. repeat split.
  Qed.

  (** ** Main statements *)
  Hypothesis SD : sorts_by tb_day sort_days.
  Hypothesis SC : sorts_by snd sort_counts.
  Hypothesis KU : forall rows d, entry rows = Ok d -> forall u, In u (users_of d) <-> In u (map r_user rows).

  Lemma any_parts data cut hm_min st0 :
    exists initial stream left, prepare_data_for_experiment tb_index tb_day sort_days data cut hm_min = Ok (initial, stream, left) /\
    exists rows chunks, Forall2 model_row initial rows /\ Forall2 (Forall2 model_row) (map snd stream) chunks /\
    forall hm, (0 <= hm -> any data cut hm_min hm st0 = full data cut hm_min hm st0) /\
    match entry rows with
    | Err e => any data cut hm_min hm st0 = Err e
    | Ok d => let test := test_users_for users_of sort_counts d left hm in
       any data cut hm_min hm st0 = run test chunk_mode hm st0 d chunks /\
       (forall k, looked_at hm (length stream) k -> selected k initial (map snd stream) test)
    end.
  Proof.
    destruct (prepare_main tb_index tb_day sort_days data cut hm_min SD) as (initial & stream & left & E & E1 & OK & _).
    exists initial, stream, left. split; [exact E|]. exists (map content initial), (map (map content) (map snd stream)).
    split; [apply content_rows|]. split; [apply content_groups|]. intro hm. split; [apply any_full|].
    unfold experiment_for. rewrite E. cbn [bind]. destruct (entry (map content initial)) as [d|e] eqn:Ed; cbn [bind]; [|reflexivity].
    split; [now rewrite map_map|]. intros k K. unfold test_users_for. rewrite stability_slice_eq.
    assert (LN : length (nodup Z.eq_dec (map snd (map (fun x : trow * Z => (tb_user (fst x), snd x)) left))) = length stream).
    { rewrite (Permutation_length (labels_perm _ _ _ OK)). apply map_length. }
    rewrite LN. assert (Ek : k = Nat.min (taken hm (length stream)) (length (map snd stream))).
    { rewrite map_length. destruct (taken_looked hm (length stream)) as (B1 & B2). destruct K as (K1 & K2). destruct (Z.lt_ge_cases hm 0) as [L|L].
      - specialize (K2 L). specialize (B2 L). lia.
      - specialize (K1 L). specialize (B1 L). lia. }
    rewrite Ek. apply (proj1 (selected_min _ _ _ _)). eapply stability_selected; eauto.
    intro u. rewrite (KU _ _ Ed u), users_content. tauto.
  Qed.

  Lemma F2_length {X Y} (P : X -> Y -> Prop) l l' : Forall2 P l l' -> length l' = length l.
  Proof. induction 1; cbn; auto. Qed.

  Lemma cut_main data cut hm_min st0 hm hm' dyn dyn' initial stream left k k' :
    prepare_data_for_experiment tb_index tb_day sort_days data cut hm_min = Ok (initial, stream, left) ->
    any data cut hm_min hm st0 = Ok dyn -> any data cut hm_min hm' st0 = Ok dyn' ->
    processed hm (length stream) k -> processed hm' (length stream) k' -> (k <= k')%nat ->
    length (d_hr dyn) = k /\ length (d_hr dyn') = k' /\ cut_after k dyn dyn'.
  Proof.
    intros P E E' K K' L. apply processed_steps in K. apply processed_steps in K'.
    unfold experiment_for in E, E'. rewrite P in E, E'. cbn [bind] in E, E'. destruct (entry (map content initial)) as [d|e]; [|discriminate]. cbn [bind] in E, E'.
    subst k k'. rewrite <- (map_length (fun g : Z * list trow => map content (snd g)) stream) in *.
    split; [|split]; [apply (run_lengths _ _ _ _ _ _ E)|apply (run_lengths _ _ _ _ _ _ E')|eapply run_agree; eauto].
  Qed.

  Lemma same_users_main data cut hm_min st0 hm hm' dyn' initial stream left k k' :
    prepare_data_for_experiment tb_index tb_day sort_days data cut hm_min = Ok (initial, stream, left) ->
    (forall rows d, Forall2 model_row initial rows -> entry rows = Ok d -> test_users_for users_of sort_counts d left hm = test_users_for users_of sort_counts d left hm') ->
    any data cut hm_min hm' st0 = Ok dyn' ->
    processed hm (length stream) k -> processed hm' (length stream) k' -> (k <= k')%nat ->
    exists dyn, any data cut hm_min hm st0 = Ok dyn /\ cut_after k dyn dyn' /\ d_wji dyn = firstn (k - 1) (d_wji dyn').
  Proof.
    intros P TU E' K K' L. assert (K0 := K). assert (K0' := K'). apply processed_steps in K. apply processed_steps in K'.
    assert (X : exists dyn, any data cut hm_min hm st0 = Ok dyn /\ d_wji dyn = firstn (k - 1) (d_wji dyn')).
    { unfold experiment_for in *. rewrite P in *. cbn [bind] in *. specialize (TU (map content initial)).
      destruct (entry (map content initial)) as [d|e]; [|discriminate]. cbn [bind] in *. rewrite (TU d (content_rows _) eq_refl).
      subst k k'. rewrite <- (map_length (fun g : Z * list trow => map content (snd g)) stream) in *. eapply run_shorter; eauto. }
    destruct X as (dyn & E & W). exists dyn. split; auto. split; auto. eapply cut_main; eauto.
  Qed.

  Lemma nobody_main data cut hm_min st0 hm initial stream left dyn :
    prepare_data_for_experiment tb_index tb_day sort_days data cut hm_min = Ok (initial, stream, left) ->
    (forall s l, recommend m s [] true = Ok l -> l = []) -> looked_at hm (length stream) 0 -> (1 < length stream)%nat ->
    any data cut hm_min hm st0 <> Ok dyn.
  Proof.
    intros P R K L E. destruct (any_parts data cut hm_min st0) as (i & s & l & P' & rows & chunks & F1 & F2 & H).
    rewrite P in P'. injection P' as <- <- <-. destruct (H hm) as (_ & H1). destruct (entry rows) as [d|e]; [|congruence].
    cbn in H1. destruct H1 as (E1 & SEL). specialize (SEL _ K). destruct SEL as (_ & _ & B & _).
    assert (N : test_users_for users_of sort_counts d left hm = []).
    { destruct (test_users_for users_of sort_counts d left hm) as [|u us]; auto. exfalso.
      destruct (B u (or_introl eq_refl)) as (_ & t & g & Lt & _). lia. }
    rewrite N in E1. rewrite E1 in E. apply F2_length in F2. rewrite map_length in F2.
    revert E. apply Nobody_main.nobody_fails; auto. destruct K as (K1 & _). unfold n_steps. destruct (Z.ltb_spec 0 hm); lia.
  Qed.
End Iter.
