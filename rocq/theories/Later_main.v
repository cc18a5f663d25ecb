(** Proofs of C109. *)
From Coq Require Import ZArith QArith List Bool Lia.
From Verif Require Import Prelude DataPrep_model Tensor_model Matrix_model LinAlg_model Dynamic_model Dynamic_spec Dynamic_main Later_spec.
Import ListNotations.
Open Scope Z_scope.

Lemma skipn_series {X} n j (f : nat -> X) : skipn j (series n f) = series (n - j) (fun t => f (j + t)%nat).
Proof.
  unfold series.
  destruct (Nat.le_gt_cases j n) as [L|L].
  - replace n with (j + (n - j))%nat at 1 by lia. rewrite seq_app, map_app, skipn_app, map_length, seq_length, Nat.sub_diag.
    rewrite skipn_all2 by (rewrite map_length, seq_length; lia). cbn [skipn app Nat.add].
    clear L. generalize (n - j)%nat. intros k. revert j. 
    assert (G : forall b j, map f (seq (j + b) k) = map (fun t => f (j + t)%nat) (seq b k)).
    { induction k as [|k IH]; intros b j; [reflexivity|]. cbn [seq map]. f_equal. rewrite <- IH. f_equal. f_equal. lia. }
    intros j. rewrite <- (G 0%nat j), Nat.add_0_r. reflexivity.
  - rewrite skipn_all2 by (rewrite map_length, seq_length; lia). replace (n - j)%nat with 0%nat by lia. reflexivity.
Qed.

Section Later.
  Context {S D A V T : Type} (zero : A) (sub : A -> A -> A).
  Variable norm : mat A -> V.
  Variable div : V -> V -> V.
  Variable minus_one : V.
  Variable clock : nat -> T.
  Variable m : api S D A.
  Variable grow : D -> list row -> res D.
  Variable tu : list Z.
  Hypothesis F : forgets m.
  Hypothesis K : keeps_items m grow.
  Notation run := (dynamical_experiment zero sub norm div minus_one clock m grow tu false).
  Notation runs := (runs zero sub norm div minus_one m grow tu false).

  Lemma steps_left hm j n : (j < n_steps hm n)%nat -> n_steps (left_over hm j) (n - j) = (n_steps hm n - j)%nat.
  Proof.
    unfold n_steps, left_over. destruct (0 <? hm) eqn:E.
    - apply Z.ltb_lt in E. intros H. assert (0 <? hm - Z.of_nat j = true) as -> by (apply Z.ltb_lt; lia). lia.
    - rewrite E. lia.
  Qed.

  Lemma table_grown st0 d stream n H j : runs st0 d stream n H -> (j <= n)%nat -> (n <= length stream)%nat ->
    grown grow d (firstn j stream) = Ok (table H j).
  Proof.
    intros (_ & E0 & St & _) Lj Ln. revert d E0.
    assert (G : forall k b, (b + k <= n)%nat -> grown grow (table H b) (firstn k (skipn b stream)) = Ok (table H (b + k)%nat)).
    { induction k as [|k IH]; intros b L; [cbn [firstn grown]; rewrite Nat.add_0_r; reflexivity|].
      destruct (nth_error stream b) as [c|] eqn:E; [|apply nth_error_None in E; lia].
      assert (X : skipn b stream = c :: skipn (Datatypes.S b) stream).
      { clear - E. revert b E. induction stream as [|a l IH]; intros [|b] E; cbn in E; try discriminate; [injection E as ->; reflexivity|].
        cbn [skipn]. apply IH. exact E. }
      rewrite X. cbn [firstn grown]. destruct (St b c ltac:(lia) E) as (_ & _ & _ & _ & U1 & _). rewrite U1. cbn [bind].
      rewrite IH by lia. f_equal. f_equal. lia. }
    intros d E0. rewrite <- E0. exact (G j 0%nat Lj).
  Qed.

  Definition shifted (j : nat) (H : @history S D A V) : @history S D A V :=
    mkHistory (fun t => st H (j + t)%nat) (fun t => table H (j + t)%nat) (fun t => stab H (j + t)%nat)
      (fun t => emb_u H (j + t)%nat) (fun t => emb_v H (j + t)%nat) (fun t => hits H (j + t)%nat) (fun t => ranks H (j + t)%nat)
      (fun t => agree H (j + t)%nat) (fun t => du H (j + t)%nat) (fun t => dv H (j + t)%nat).

  Lemma trained st0 s0 d stream n H t : runs st0 d stream n H -> (t <= n)%nat -> (n <= length stream)%nat -> train m s0 (table H t) = Ok (st H t).
  Proof.
    intros (E & E0 & St & _) Lt Ln. destruct t as [|t].
    - rewrite E0, <- (F s0 s0), (F s0 st0). exact E.
    - destruct (nth_error stream t) as [c|] eqn:Ec; [|apply nth_error_None in Ec; lia].
      destruct (St t c ltac:(lia) Ec) as (_ & _ & _ & _ & _ & U). rewrite <- (F (st H t) s0). exact U.
  Qed.

  Lemma nth_skipn {X} (l : list X) j t : nth_error (skipn j l) t = nth_error l (j + t).
  Proof. revert j. induction l as [|a l IH]; intros [|j]; try reflexivity; [destruct t; reflexivity|]. cbn [skipn Nat.add nth_error]. apply IH. Qed.

  Lemma runs_later st0 st0' d stream n H j : runs st0 d stream n H -> (j <= n)%nat -> (n <= length stream)%nat ->
    runs st0' (table H j) (skipn j stream) (n - j) (shifted j H).
  Proof.
    intros R Lj Ln. pose proof R as (E & E0 & St & Ch). unfold Dynamic_spec.runs, shifted.
    cbn [st table stab emb_u emb_v hits ranks agree du dv]. rewrite !Nat.add_0_r.
    split; [apply (trained st0 st0' d stream n H); assumption|]. split; [reflexivity|]. split.
    - intros t c Lt Ec. rewrite nth_skipn in Ec. rewrite <- !plus_n_Sm. apply St; [lia|exact Ec].
    - intros t Lt. rewrite <- !plus_n_Sm. destruct (Ch (j + t)%nat ltac:(lia)) as (W & U & I). split; [exact W|split; [exact U|]].
      unfold item_change in *.
      destruct (nth_error stream (j + t)) as [c|] eqn:Ec; [|apply nth_error_None in Ec; lia].
      destruct (nth_error stream (Datatypes.S (j + t))) as [c'|] eqn:Ec'; [|apply nth_error_None in Ec'; lia].
      destruct (St (j + t)%nat c ltac:(lia) Ec) as (_ & _ & _ & V1 & G & _). destruct (St (Datatypes.S (j + t)) c' ltac:(lia) Ec') as (_ & _ & _ & V2 & _).
      pose proof (K _ _ _ st0 st0 _ _ _ _ G (trained _ st0 _ _ _ _ (j + t)%nat R ltac:(lia) Ln)
        (trained _ st0 _ _ _ _ (Datatypes.S (j + t)) R ltac:(lia) Ln) V1 V2) as Le.
      assert (X : (mr (emb_v H (Datatypes.S (j + t))) <? mr (emb_v H (j + t)))%nat = false) by (apply Nat.ltb_ge; exact Le).
      rewrite X in *. rewrite andb_false_r in *. exact I.
  Qed.

  Theorem start_later hm st0 st0' d stream dyn j : run hm st0 d stream = Ok dyn -> (j < n_steps hm (length stream))%nat ->
    exists d' dyn', grown grow d (firstn j stream) = Ok d' /\ run (left_over hm j) st0' d' (skipn j stream) = Ok dyn' /\ tail_of j dyn dyn'.
  Proof.
    intros E L. apply (proj1 (experiment_main _ _ _ _ _ _ _ _ _ _ _ _ _ _ _)) in E as (H & R & ->).
    set (n := n_steps hm (length stream)) in *.
    assert (Ln : (n <= length stream)%nat) by (unfold n, n_steps; destruct (0 <? hm); lia).
    exists (table H j), (reported norm clock (n - j) (shifted j H)).
    split; [apply (table_grown st0 d stream n H j R); lia|]. split.
    - apply (proj2 (experiment_main _ _ _ _ _ _ _ _ _ _ _ _ _ _ _)). exists (shifted j H).
      rewrite skipn_length, (steps_left hm j (length stream) L). fold n.
      split; [apply (runs_later st0 st0' d stream n H j R); lia|reflexivity].
    - unfold tail_of, reported, shifted. cbn [d_hr d_mrr d_wji rnd_users rnd_items nd_users nd_items st table stab emb_u emb_v hits ranks agree du dv].
      rewrite !skipn_series. replace (n - j - 1)%nat with (n - 1 - j)%nat by lia. repeat split; reflexivity.
  Qed.
End Later.
