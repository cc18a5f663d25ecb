(** Assembly of C14 (WJI over whole arrays). *)
From Coq Require Import ZArith QArith Qminmax List Bool Lia Lqa Permutation.
From Verif Require Import Prelude Prelude_proofs Eval_model Eval_spec Eval_proofs.
Import ListNotations.
Open Scope Q_scope.

Lemma mapM_Forall2 {A B} (f : A -> res B) l ys :
  mapM f l = Ok ys -> Forall2 (fun x y => f x = Ok y) l ys.
Proof.
  revert ys. induction l as [|x l IH]; intros ys H; simpl in H.
  - inversion H; constructor.
  - destruct (f x) as [y|] eqn:E; [|discriminate]. cbn [bind] in H.
    destruct (mapM f l) as [zs|] eqn:E2; [|discriminate]. cbn [bind] in H.
    inversion H; subst. constructor; auto.
Qed.

Lemma Forall2_mapM {A B} (f : A -> res B) l ys :
  Forall2 (fun x y => f x = Ok y) l ys -> mapM f l = Ok ys.
Proof. induction 1 as [|x y l ys H F IH]; simpl; auto. rewrite H. cbn [bind]. rewrite IH. reflexivity. Qed.

Lemma fold_plus_Qsum l : fold_left Qplus l 0 == Qsum l.
Proof.
  pose proof (fold_Qplus (fun x => x) l 0) as H. rewrite map_id in H. rewrite H. ring.
Qed.

Lemma wji_sim_ok arr1 arr2 topn N qs :
  length arr1 = length arr2 -> arr1 <> [] ->
  Forall2 (fun rr q => wji_user N topn (fst rr) (snd rr) = Ok q) (combine arr1 arr2) qs ->
  exists q, wji_sim arr1 arr2 topn N = Ok q /\ q == Qsum qs / inject_Z (Z.of_nat (length arr1)).
Proof.
  intros HL Hne F. unfold wji_sim. rewrite <- HL, Nat.ltb_irrefl.
  rewrite (Forall2_mapM _ _ _ F). cbn [bind].
  destruct arr1 as [|r arr1]; [congruence|].
  rewrite div_len_S by (simpl; lia). eexists; split; [reflexivity|].
  rewrite fold_plus_Qsum. reflexivity.
Qed.

Lemma wji_sim_inv arr1 arr2 topn N q :
  length arr1 = length arr2 -> wji_sim arr1 arr2 topn N = Ok q ->
  arr1 <> [] /\ exists qs,
  Forall2 (fun rr q => wji_user N topn (fst rr) (snd rr) = Ok q) (combine arr1 arr2) qs.
Proof.
  intros HL H. unfold wji_sim in H. rewrite <- HL, Nat.ltb_irrefl in H.
  destruct (mapM _ _) as [qs|] eqn:E; [|discriminate]. cbn [bind] in H.
  split; [intros ->; discriminate|]. exists qs. apply mapM_Forall2; auto.
Qed.

Lemma wji_sym u v q : wji u v = Ok q -> exists q', wji v u = Ok q' /\ q' == q.
Proof.
  unfold wji. intros H.
  pose proof (wji_fold (combine u v) 0 0) as F1. pose proof (wji_fold (combine v u) 0 0) as F2.
  destruct (fold_left _ (combine u v) (0, 0)) as [n1 d1].
  destruct (fold_left _ (combine v u) (0, 0)) as [n2 d2].
  destruct F1 as [Fn1 Fd1]. destruct F2 as [Fn2 Fd2].
  assert (S : forall (a b : list Q), Qsum (map (fun p => Qmin (fst p) (snd p)) (combine a b))
              == Qsum (map (fun p => Qmin (fst p) (snd p)) (combine b a))
            /\ Qsum (map (fun p => Qmax (fst p) (snd p)) (combine a b))
              == Qsum (map (fun p => Qmax (fst p) (snd p)) (combine b a))).
  { induction a as [|x a IH]; intros [|y b]; simpl; try (split; reflexivity).
    destruct (IH b) as [I1 I2]. rewrite I1, I2, (Q.min_comm x y), (Q.max_comm x y). split; reflexivity. }
  destruct (S u v) as [S1 S2]. rewrite S1 in Fn1. rewrite S2 in Fd1.
  assert (EN : n2 == n1) by (rewrite Fn1, Fn2; reflexivity).
  assert (ED : d2 == d1) by (rewrite Fd1, Fd2; reflexivity).
  destruct (Qeq_bool d1 0) eqn:E1; [discriminate|].
  destruct (Qeq_bool d2 0) eqn:E2.
  - exfalso. apply Qeq_bool_iff in E2. rewrite ED in E2. apply Qeq_bool_iff in E2. congruence.
  - inversion H; subst. eexists; split; [reflexivity|]. rewrite EN, ED. reflexivity.
Qed.

Lemma wji_user_sym N topn r1 r2 q :
  wji_user N topn r1 r2 = Ok q -> exists q', wji_user N topn r2 r1 = Ok q' /\ q' == q.
Proof.
  unfold wji_user. destruct (bow N topn r1) as [b1|]; [|discriminate].
  destruct (bow N topn r2) as [b2|]; [|discriminate]. cbn [bind]. apply wji_sym.
Qed.

Lemma wji_sim_symmetric_main arr1 arr2 topn N q :
  length arr1 = length arr2 ->
  wji_sim arr1 arr2 topn N = Ok q ->
  exists q', wji_sim arr2 arr1 topn N = Ok q' /\ q' == q.
Proof.
  intros HL H. pose proof (wji_sim_inv _ _ _ _ _ HL H) as [Hne [qs F]].
  destruct (wji_sim_ok _ _ _ _ _ HL Hne F) as [q0 [E Q]]. rewrite E in H; inversion H; subst q0.
  assert (G : exists qs', Forall2 (fun rr q => wji_user N topn (fst rr) (snd rr) = Ok q) (combine arr2 arr1) qs'
                          /\ Qsum qs' == Qsum qs).
  { clear - F. revert arr2 qs F. induction arr1 as [|r1 arr1 IH]; intros [|r2 arr2] qs F; simpl in *;
      try (inversion F; subst; exists []; split; [constructor|reflexivity]).
    inversion F as [|? y ? ys Hy F']; subst. simpl in Hy.
    destruct (IH _ _ F') as [qs' [G1 G2]]. destruct (wji_user_sym _ _ _ _ _ Hy) as [y' [Y1 Y2]].
    exists (y' :: qs'). split; [constructor; auto|]. simpl. rewrite G2, Y2. reflexivity. }
  destruct G as [qs' [G1 G2]].
  destruct (wji_sim_ok arr2 arr1 topn N qs') as [q' [E' Q']]; auto.
  - intros ->. destruct arr1; simpl in *; congruence.
  - exists q'. split; auto. rewrite Q, Q', G2, HL. reflexivity.
Qed.

Definition valid_arr (N topn : nat) (arr : list (list Z)) : Prop :=
  Forall (valid_row N topn) arr.

Lemma Forall_combine_valid N topn arr1 arr2 r1 r2 :
  valid_arr N topn arr1 -> valid_arr N topn arr2 ->
  In (r1, r2) (combine arr1 arr2) -> valid_row N topn r1 /\ valid_row N topn r2.
Proof.
  unfold valid_arr. rewrite !Forall_forall. intros V1 V2 H.
  split; [apply V1; eapply in_combine_l; eauto|apply V2; eapply in_combine_r; eauto].
Qed.

Lemma users_ok N topn l :
  (1 <= topn)%nat ->
  (forall r1 r2, In (r1, r2) l -> valid_row N topn r1 /\ valid_row N topn r2) ->
  exists qs, Forall2 (fun rr q => wji_user N topn (fst rr) (snd rr) = Ok q) l qs
    /\ (forall q, In q qs -> 0 <= q <= 1)
    /\ ((forall r1 r2, In (r1, r2) l -> r1 = r2) -> forall q, In q qs -> q == 1).
Proof.
  intros T. induction l as [|[r1 r2] l IH]; intros V.
  - exists []. split; [constructor|]. simpl. tauto.
  - destruct IH as [qs [F [R O]]]; [intros; apply V; right; auto|].
    destruct (V r1 r2 (or_introl eq_refl)) as [V1 V2].
    destruct (wji_user_ok N topn r1 r2 V1 V2 T) as [q [E [Hq [_ [_ H1]]]]].
    exists (q :: qs). split; [constructor; auto|]. split.
    + intros x [<-|Hx]; auto.
    + intros HE x [<-|Hx].
      * apply H1, HE; left; auto.
      * apply O; auto. intros; apply HE; right; auto.
Qed.

Lemma Qsum_bounds qs : (forall q, In q qs -> 0 <= q <= 1) ->
  0 <= Qsum qs <= inject_Z (Z.of_nat (length qs)).
Proof.
  induction qs as [|q qs IH]; intros H; [simpl; split; apply Qle_refl|].
  destruct (H q (or_introl eq_refl)). destruct IH as [I1 I2]; [intros; apply H; right; auto|].
  change (length (q :: qs)) with (S (length qs)).
  rewrite Nat2Z.inj_succ, <- Z.add_1_r, inject_Z_plus. simpl.
  change (inject_Z 1) with 1. lra.
Qed.

Lemma Qsum_ones qs : (forall q, In q qs -> q == 1) -> Qsum qs == inject_Z (Z.of_nat (length qs)).
Proof.
  induction qs as [|q qs IH]; intros H; [reflexivity|].
  change (length (q :: qs)) with (S (length qs)).
  rewrite Nat2Z.inj_succ, <- Z.add_1_r, inject_Z_plus. simpl.
  rewrite (H q) by (left; auto). rewrite IH by (intros; apply H; right; auto).
  change (inject_Z 1) with 1. ring.
Qed.

Lemma wji_sim_range_main arr1 arr2 topn N :
  length arr1 = length arr2 -> arr1 <> [] -> (1 <= topn)%nat ->
  valid_arr N topn arr1 -> valid_arr N topn arr2 ->
  exists q, wji_sim arr1 arr2 topn N = Ok q /\ 0 <= q <= 1 /\ (arr1 = arr2 -> q == 1).
Proof.
  intros HL Hne T V1 V2.
  destruct (users_ok N topn (combine arr1 arr2) T) as [qs [F [R O]]].
  { intros r1 r2 Hin. exact (Forall_combine_valid N topn arr1 arr2 r1 r2 V1 V2 Hin). }
  destruct (wji_sim_ok _ _ _ _ _ HL Hne F) as [q [E Q]].
  exists q. split; auto.
  assert (LQ : length qs = length arr1).
  { apply Forall2_length' in F. rewrite <- F, combine_length. lia. }
  assert (P : 0 < inject_Z (Z.of_nat (length arr1))).
  { apply len_pos. destruct arr1; simpl; [congruence|lia]. }
  assert (NZ : ~ inject_Z (Z.of_nat (length arr1)) == 0) by (intros X; rewrite X in P; discriminate).
  destruct (Qsum_bounds qs R) as [B1 B2]. rewrite LQ in B2.
  split; [split|].
  - rewrite Q. apply Qle_shift_div_l; [exact P|rewrite Qmult_0_l; exact B1].
  - rewrite Q. apply Qle_shift_div_r; [exact P|rewrite Qmult_1_l; exact B2].
  - intros ->. rewrite Q, Qsum_ones.
    + rewrite LQ. field; auto.
    + apply O. clear. intros r1 r2. induction arr2 as [|r a IH]; simpl; [tauto|].
      intros [H|H]; [congruence|auto].
Qed.

Definition rect (topn : nat) (arr : list (list Z)) : Prop :=
  Forall (fun r => length r = topn /\ Forall (fun x => (0 <= x)%Z) r) arr.

Lemma bow_bad N topn row :
  length row = topn -> Forall (fun x => (0 <= x)%Z) row ->
  (exists x, In x row /\ (Z.of_nat N <= x)%Z) -> bow N topn row = Err OutOfBounds.
Proof.
  intros HL HN [x [Hx Hb]]. unfold bow. rewrite HL, Nat.eqb_refl. cbn [negb].
  apply assign_fold_bad.
  - intros y w H. apply in_combine_l in H. rewrite Forall_forall in HN. auto.
  - apply In_nth_error in Hx as [n Hn].
    assert (Hlt : (n < topn)%nat) by (rewrite <- HL; apply nth_error_Some; congruence).
    exists x, (inv_rank n). split; auto.
    clear - Hn HL Hlt.
    assert (G : forall row n s t, nth_error row n = Some x -> (n < t)%nat ->
              In (x, inv_rank (s + n)) (combine row (map inv_rank (seq s t)))).
    { induction row0 as [|y r IH]; intros [|m] s [|t] H Ht; simpl in *; try discriminate; try lia.
      - inversion H; subst. left. rewrite Nat.add_0_r. reflexivity.
      - right. replace (s + S m)%nat with (S s + m)%nat by lia. apply IH; auto; lia. }
    apply (G row n 0%nat topn Hn Hlt).
Qed.

Lemma row_valid_or_bad N topn r :
  length r = topn -> Forall (fun x => (0 <= x)%Z) r ->
  valid_row N topn r \/ bow N topn r = Err OutOfBounds.
Proof.
  intros HL HN.
  destruct (Forall_Exists_dec (fun x => (x < Z.of_nat N)%Z) (fun x => Z_lt_dec x (Z.of_nat N)) r) as [A|A].
  - left. split; auto. intros x Hx. rewrite Forall_forall in HN, A. split; auto.
  - right. apply bow_bad; auto. apply Exists_exists in A as [x [Hx Hn]]. exists x. split; auto. lia.
Qed.

Lemma wji_zero_topn N q : wji_user N 0 [] [] = Ok q -> False.
Proof.
  unfold wji_user, bow. simpl. unfold wji.
  pose proof (wji_fold (combine (repeat 0 N) (repeat 0 N)) 0 0) as F.
  destruct (fold_left _ _ (0, 0)) as [n d]. destruct F as [_ Fd].
  assert (d == 0).
  { rewrite Fd. clear. induction N as [|N IH]; simpl; [reflexivity|].
    rewrite Qplus_assoc, (Qplus_comm 0 (Qmax 0 0)), <- Qplus_assoc.
    rewrite IH. reflexivity. }
  apply Qeq_bool_iff in H. rewrite H. discriminate.
Qed.

Lemma wji_sim_defined_iff_main arr1 arr2 topn N :
  length arr1 = length arr2 -> rect topn arr1 -> rect topn arr2 ->
  ((exists q, wji_sim arr1 arr2 topn N = Ok q)
   <-> arr1 <> [] /\ (1 <= topn)%nat
       /\ (forall r x, In r (arr1 ++ arr2) -> In x r -> (x < Z.of_nat N)%Z)).
Proof.
  intros HL R1 R2. split.
  - intros [q H]. pose proof (wji_sim_inv _ _ _ _ _ HL H) as [Hne [qs F]].
    split; auto. unfold rect in R1, R2. rewrite Forall_forall in R1, R2.
    assert (G : forall r1 r2, In (r1, r2) (combine arr1 arr2) ->
       (1 <= topn)%nat /\ valid_row N topn r1 /\ valid_row N topn r2).
    { intros r1 r2 Hin.
      assert (exists q, wji_user N topn r1 r2 = Ok q) as [q1 E].
      { clear - F Hin. induction F as [|a b l l' Hab F IH]; [destruct Hin|].
        destruct Hin as [->|Hin]; eauto. }
      destruct (R1 r1) as [L1 N1]; [eapply in_combine_l; eauto|].
      destruct (R2 r2) as [L2 N2]; [eapply in_combine_r; eauto|].
      destruct (row_valid_or_bad N topn r1 L1 N1) as [V1|B1].
      2:{ unfold wji_user in E. rewrite B1 in E. discriminate. }
      destruct (row_valid_or_bad N topn r2 L2 N2) as [V2|B2].
      2:{ unfold wji_user in E. rewrite B2 in E. destruct (bow N topn r1); discriminate. }
      split; auto. destruct topn; [|lia]. exfalso.
      destruct r1, r2; simpl in *; try discriminate. eapply wji_zero_topn; eauto. }
    assert (HC : forall r, In r arr1 -> exists r2, In (r, r2) (combine arr1 arr2)).
    { clear - HL. revert arr2 HL. induction arr1 as [|a arr1 IH]; intros [|b arr2] HL r Hr; simpl in *;
        try tauto; try discriminate.
      destruct Hr as [->|Hr]; [exists b; auto|]. destruct (IH arr2 ltac:(lia) r Hr) as [c Hc]. exists c; auto. }
    assert (HC2 : forall r, In r arr2 -> exists r1, In (r1, r) (combine arr1 arr2)).
    { clear - HL. revert arr2 HL. induction arr1 as [|a arr1 IH]; intros [|b arr2] HL r Hr; simpl in *;
        try tauto; try discriminate.
      destruct Hr as [->|Hr]; [exists a; auto|]. destruct (IH arr2 ltac:(lia) r Hr) as [c Hc]. exists c; auto. }
    split.
    + destruct arr1 as [|r arr1]; [congruence|].
      destruct (HC r (or_introl eq_refl)) as [r2 Hr]. apply G in Hr. tauto.
    + intros r x Hr Hx. apply in_app_or in Hr as [Hr|Hr].
      * destruct (HC r Hr) as [r2 Hin]. destruct (G _ _ Hin) as [_ [[_ V] _]]. apply V; auto.
      * destruct (HC2 r Hr) as [r1 Hin]. destruct (G _ _ Hin) as [_ [_ [_ V]]]. apply V; auto.
  - intros [Hne [T HV]].
    assert (V1 : valid_arr N topn arr1).
    { apply Forall_forall. intros r Hr. unfold rect in R1. rewrite Forall_forall in R1.
      destruct (R1 r Hr) as [L F]. rewrite Forall_forall in F. split; auto. intros x Hx. split; auto.
      apply (HV r); auto. apply in_or_app; auto. }
    assert (V2 : valid_arr N topn arr2).
    { apply Forall_forall. intros r Hr. unfold rect in R2. rewrite Forall_forall in R2.
      destruct (R2 r Hr) as [L F]. rewrite Forall_forall in F. split; auto. intros x Hx. split; auto.
      apply (HV r); auto. apply in_or_app; auto. }
    destruct (wji_sim_range_main arr1 arr2 topn N HL Hne T V1 V2) as [q [E _]]. eauto.
Qed.

Lemma wji_user_extremes_main N topn r1 r2 :
  (1 <= topn)%nat -> length r1 = topn -> length r2 = topn ->
  (forall x, In x r1 \/ In x r2 -> (0 <= x < Z.of_nat N)%Z) ->
  exists q, wji_user N topn r1 r2 = Ok q /\ 0 <= q <= 1
    /\ (q == 0 <-> forall x, In x r1 -> ~ In x r2)
    /\ (NoDup r1 -> NoDup r2 -> (q == 1 <-> r1 = r2)).
Proof.
  intros T L1 L2 HV.
  destruct (wji_user_ok N topn r1 r2) as [q [E [R [Z0 [O1 O2]]]]]; auto.
  - split; auto.
  - split; auto.
  - exists q. split; auto. split; auto. split; auto. intros ND1 ND2. split; auto.
Qed.
