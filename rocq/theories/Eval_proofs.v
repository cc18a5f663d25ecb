(** Lemmas about the metrics. *)
From Coq Require Import ZArith QArith Qminmax List Bool Lia Lqa Permutation.
From Verif Require Import Prelude Prelude_proofs Eval_model Eval_spec.
Import ListNotations.
Open Scope Q_scope.

Lemma inv_rank_pos j : 0 < inv_rank j.
Proof. unfold inv_rank, Qlt; simpl. lia. Qed.
Lemma inv_rank_le_1 j : inv_rank j <= 1.
Proof. unfold inv_rank, Qle; simpl. lia. Qed.
Lemma inv_rank_anti i j : (i <= j)%nat -> inv_rank j <= inv_rank i.
Proof. intros H. unfold inv_rank, Qle; simpl. lia. Qed.
Lemma inv_rank_inj i j : inv_rank i == inv_rank j -> i = j.
Proof. unfold inv_rank, Qeq; simpl. lia. Qed.

Lemma fold_Qplus {A} (f : A -> Q) l : forall a,
  fold_left (fun t x => t + f x) l a == a + Qsum (map f l).
Proof.
  induction l as [|x l IH]; intros a; simpl; [ring|]. rewrite IH. ring.
Qed.

Lemma div_len_S total n : (0 < n)%nat ->
  div_len total n = Ok (total / inject_Z (Z.of_nat n)).
Proof. intros H. destruct n; [lia|reflexivity]. Qed.

Lemma len_pos n : (0 < n)%nat -> 0 < inject_Z (Z.of_nat n).
Proof. intros H. unfold Qlt, inject_Z; simpl. lia. Qed.

Lemma Qdiv_le_compat a b c : 0 < c -> a <= b -> a / c <= b / c.
Proof.
  intros Hc H. unfold Qdiv. apply Qmult_le_compat_r; auto.
  apply Qlt_le_weak, Qinv_lt_0_compat; auto.
Qed.

Lemma Qdiv_eq_compat a b c : a == b -> a / c == b / c.
Proof. intros H. rewrite H. reflexivity. Qed.

(** * Hit rate *)

Definition hitq (rt : list Z * Z) : Q := if memZ (snd rt) (fst rt) then 1 else 0.

Lemma hr_total l : forall a,
  fold_left (fun t rt => if memZ (snd rt) (fst rt) then t + 1 else t) l a
  == a + Qsum (map hitq l).
Proof.
  induction l as [|x l IH]; intros a; simpl; [ring|].
  rewrite IH. unfold hitq at 2. destruct (memZ (snd x) (fst x)); ring.
Qed.

Definition hits_of (l : list (list Z * Z)) : nat :=
  length (filter (fun rt => if in_dec Z.eq_dec (snd rt) (fst rt) then true else false) l).

Lemma Qsum_hits l : Qsum (map hitq l) == inject_Z (Z.of_nat (hits_of l)).
Proof.
  unfold hits_of. induction l as [|x l IH]; simpl; [reflexivity|].
  rewrite IH. unfold hitq.
  destruct (in_dec Z.eq_dec (snd x) (fst x)) as [i|n]; simpl.
  - rewrite (proj2 (memZ_spec _ _) i).
    change (Z.pos (Pos.of_succ_nat (length (filter (fun rt => if in_dec Z.eq_dec (snd rt) (fst rt) then true else false) l))))
      with (Z.of_nat (S (length (filter (fun rt => if in_dec Z.eq_dec (snd rt) (fst rt) then true else false) l)))).
    rewrite Nat2Z.inj_succ, <- Z.add_1_r, inject_Z_plus. ring.
  - rewrite (proj2 (memZ_false _ _) n). ring.
Qed.

Lemma hr_ok rec test :
  (length test <= length rec)%nat -> test <> [] ->
  exists q, hr rec test = Ok q
    /\ q == inject_Z (Z.of_nat (hits rec test)) / inject_Z (Z.of_nat (length test)).
Proof.
  intros HL Hne. unfold hr. rewrite (proj2 (Nat.ltb_ge _ _) HL).
  destruct test as [|t test]; [congruence|].
  rewrite div_len_S by (simpl; lia).
  eexists; split; [reflexivity|].
  rewrite hr_total, Qsum_hits, Qplus_0_l. reflexivity.
Qed.

Lemma hits_le rec test : (hits rec test <= length test)%nat.
Proof.
  unfold hits. etransitivity; [apply filter_length_le|]. rewrite combine_length. lia.
Qed.

Lemma frac_le a b n : (0 < n)%nat -> (a <= b)%nat ->
  inject_Z (Z.of_nat a) / inject_Z (Z.of_nat n) <= inject_Z (Z.of_nat b) / inject_Z (Z.of_nat n).
Proof.
  intros Hn H. apply Qdiv_le_compat; [apply len_pos; auto|].
  rewrite <- Zle_Qle. lia.
Qed.

Lemma frac_self n : (0 < n)%nat -> inject_Z (Z.of_nat n) / inject_Z (Z.of_nat n) == 1.
Proof.
  intros H. pose proof (len_pos n H). field. intros E. rewrite E in H0. apply Qlt_irrefl in H0; auto.
Qed.

Lemma frac_0 n : inject_Z (Z.of_nat 0) / n == 0.
Proof. unfold Qdiv. simpl. ring. Qed.

Lemma hr_exact_main rec test :
  ((length rec < length test)%nat -> hr rec test = Err OutOfBounds)
  /\ (test = [] -> hr rec test = Err ZeroDivisionError)
  /\ ((length test <= length rec)%nat -> test <> [] -> exists q, hr rec test = Ok q
       /\ q == inject_Z (Z.of_nat (hits rec test)) / inject_Z (Z.of_nat (length test))
       /\ 0 <= q <= 1).
Proof.
  split; [|split].
  - intros HL. unfold hr. rewrite (proj2 (Nat.ltb_lt _ _) HL). reflexivity.
  - intros ->. unfold hr. destruct rec; reflexivity.
  - intros HL Hne. destruct (hr_ok rec test HL Hne) as [q [E Q]].
    exists q. split; auto. split; auto. rewrite Q.
    assert (0 < length test)%nat by (destruct test; simpl; [congruence|lia]).
    split.
    + rewrite <- (frac_0 (inject_Z (Z.of_nat (length test)))). apply frac_le; auto. lia.
    + rewrite <- (frac_self (length test)) by auto. apply frac_le; auto. apply hits_le.
Qed.

Lemma hits_perm rec test rec' test' :
  Permutation (combine rec test) (combine rec' test') -> hits rec test = hits rec' test'.
Proof.
  intros P. unfold hits. apply Permutation_length.
  revert P. generalize (combine rec test), (combine rec' test').
  induction 1 as [|x a b P IH|x y a|]; simpl; auto.
  - destruct (in_dec _ _ _); auto.
  - destruct (in_dec Z.eq_dec (snd x) (fst x)), (in_dec Z.eq_dec (snd y) (fst y)); auto. constructor.
  - etransitivity; eauto.
Qed.

Lemma hits_grow rec rec' test :
  Forall2 (fun r r' => incl r r') rec rec' -> (hits rec test <= hits rec' test)%nat.
Proof.
  intros F. revert test. unfold hits.
  induction F as [|r r' rec rec' H F IH]; intros [|t test]; simpl; auto.
  specialize (IH test).
  destruct (in_dec Z.eq_dec t r) as [i|n], (in_dec Z.eq_dec t r') as [i'|n']; simpl; try lia.
  exfalso. apply n', H, i.
Qed.

Lemma hr_users_perm_main rec test rec' test' q :
  length rec = length test -> length rec' = length test' ->
  Permutation (combine rec test) (combine rec' test') ->
  hr rec test = Ok q -> exists q', hr rec' test' = Ok q' /\ q' == q.
Proof.
  intros HL HL' P E.
  assert (LE : length test = length test').
  { apply Permutation_length in P. rewrite !combine_length in P. lia. }
  assert (Hne : test <> []).
  { intros ->. unfold hr in E. rewrite HL in E. discriminate. }
  assert (Hne' : test' <> []) by (intros ->; destruct test; simpl in *; congruence || lia).
  destruct (hr_ok _ _ (Nat.eq_le_incl _ _ (eq_sym HL)) Hne) as [a [Ea Qa]]. rewrite Ea in E; inversion E; subst a.
  destruct (hr_ok _ _ (Nat.eq_le_incl _ _ (eq_sym HL')) Hne') as [b [Eb Qb]]. exists b. split; auto.
  rewrite Qa, Qb, (hits_perm _ _ _ _ P), LE. reflexivity.
Qed.

Lemma Forall2_length' {A B} (P : A -> B -> Prop) l l' : Forall2 P l l' -> length l = length l'.
Proof. induction 1; simpl; auto. Qed.

Lemma hr_grow_main rec rec' test q q' :
  length rec = length test ->
  Forall2 (fun r r' => incl r r') rec rec' ->
  hr rec test = Ok q -> hr rec' test = Ok q' -> q <= q'.
Proof.
  intros HL F E E'. pose proof (Forall2_length' _ _ _ F) as LL.
  assert (Hne : test <> []).
  { intros ->. unfold hr in E. rewrite HL in E. discriminate. }
  destruct (hr_ok _ _ (Nat.eq_le_incl _ _ (eq_sym HL)) Hne) as [a [Ea Qa]]. rewrite Ea in E; inversion E; subst a.
  destruct (hr_ok rec' test ltac:(lia) Hne) as [b [Eb Qb]]. rewrite Eb in E'; inversion E'; subst b.
  rewrite Qa, Qb. apply frac_le.
  - destruct test; simpl; [congruence|lia].
  - apply hits_grow; auto.
Qed.

(** * MRR *)

Lemma rr_loop_spec t row : forall j,
  (~ In t row /\ rr_loop j row t = 0)
  \/ (exists pre post, row = pre ++ t :: post /\ ~ In t pre /\ rr_loop j row t = inv_rank (j + length pre)).
Proof.
  induction row as [|r row IH]; intros j; simpl; [left; auto|].
  destruct (Z.eqb_spec r t) as [->|N].
  - right. exists [], row. simpl. rewrite Nat.add_0_r. auto.
  - destruct (IH (S j)) as [[H E]|[pre [post [-> [H E]]]]].
    + left. rewrite E. intuition.
    + right. exists (r :: pre), post. simpl. rewrite E. split; auto. split; [intuition|].
      f_equal. lia.
Qed.

Lemma rr_RR t row : RR row t (rr_loop 0 row t).
Proof.
  destruct (rr_loop_spec t row 0) as [[H ->]|[pre [post [E [H ->]]]]].
  - constructor; auto.
  - eapply RR_first; eauto.
Qed.

Lemma mrr_ok rec test :
  (length test <= length rec)%nat -> test <> [] ->
  exists q, mrr rec test = Ok q
    /\ q == Qsum (map (fun rt => rr_loop 0 (fst rt) (snd rt)) (combine rec test))
            / inject_Z (Z.of_nat (length test)).
Proof.
  intros HL Hne. unfold mrr. rewrite (proj2 (Nat.ltb_ge _ _) HL).
  destruct test as [|t test]; [congruence|].
  rewrite div_len_S by (simpl; lia).
  eexists; split; [reflexivity|].
  rewrite fold_Qplus, Qplus_0_l. reflexivity.
Qed.

Lemma mrr_is_mean_main rec test :
  ((length rec < length test)%nat -> mrr rec test = Err OutOfBounds)
  /\ (test = [] -> mrr rec test = Err ZeroDivisionError)
  /\ ((length test <= length rec)%nat -> test <> [] ->
  exists q rrs, mrr rec test = Ok q
    /\ Forall2 (fun rt r => RR (fst rt) (snd rt) r) (combine rec test) rrs
    /\ q == Qsum rrs / inject_Z (Z.of_nat (length test))).
Proof.
  split; [|split].
  { intros HL. unfold mrr. rewrite (proj2 (Nat.ltb_lt _ _) HL). reflexivity. }
  { intros ->. unfold mrr. destruct rec; reflexivity. }
  intros HL Hne. destruct (mrr_ok _ _ HL Hne) as [q [E Q]].
  exists q, (map (fun rt => rr_loop 0 (fst rt) (snd rt)) (combine rec test)).
  split; [exact E|]. split; [|exact Q].
  clear. generalize (combine rec test).
  induction l as [|x l IH]; simpl; constructor; auto. apply rr_RR.
Qed.

Lemma Qsum_le {A} (f g : A -> Q) l :
  (forall x, In x l -> f x <= g x) -> Qsum (map f l) <= Qsum (map g l).
Proof.
  induction l as [|x l IH]; intros H; simpl; [apply Qle_refl|].
  apply Qplus_le_compat; [apply H; left; auto|]. apply IH. intros; apply H; right; auto.
Qed.

Lemma Qsum_scale {A} (f : A -> Q) c l : Qsum (map (fun x => c * f x) l) == c * Qsum (map f l).
Proof. induction l as [|x l IH]; simpl; [ring|]. rewrite IH. ring. Qed.

Lemma rr_le_hit rt : rr_loop 0 (fst rt) (snd rt) <= hitq rt.
Proof.
  unfold hitq. destruct (rr_loop_spec (snd rt) (fst rt) 0) as [[H ->]|[pre [post [E [H ->]]]]].
  - destruct (memZ _ _); discriminate.
  - rewrite (proj2 (memZ_spec _ _)); [apply inv_rank_le_1|]. rewrite E. apply in_or_app. right; left; auto.
Qed.

Lemma hit_le_rr topn rt : (length (fst rt) = S topn)%nat ->
  inv_rank topn * hitq rt <= rr_loop 0 (fst rt) (snd rt).
Proof.
  intros HL. unfold hitq. destruct (rr_loop_spec (snd rt) (fst rt) 0) as [[H ->]|[pre [post [E [H ->]]]]].
  - rewrite (proj2 (memZ_false _ _) H). rewrite Qmult_0_r. apply Qle_refl.
  - rewrite (proj2 (memZ_spec _ _)) by (rewrite E; apply in_or_app; right; left; auto).
    rewrite Qmult_1_r. apply inv_rank_anti.
    apply (f_equal (@length Z)) in E. rewrite app_length in E. simpl in E. lia.
Qed.

Lemma mrr_sandwich_main rec test topn m h :
  length rec = length test -> (1 <= topn)%nat ->
  Forall (fun r => length r = topn) rec ->
  mrr rec test = Ok m -> hr rec test = Ok h ->
  h / inject_Z (Z.of_nat topn) <= m /\ m <= h /\ h <= 1.
Proof.
  intros HL HT HF Em Eh.
  assert (Hne : test <> []).
  { intros ->. unfold hr in Eh. rewrite HL in Eh. discriminate. }
  destruct (mrr_ok _ _ (Nat.eq_le_incl _ _ (eq_sym HL)) Hne) as [a [Ea Qa]]. rewrite Ea in Em; inversion Em; subst a.
  destruct (hr_ok _ _ (Nat.eq_le_incl _ _ (eq_sym HL)) Hne) as [b [Eb Qb]]. rewrite Eb in Eh; inversion Eh; subst b.
  assert (Hn : (0 < length test)%nat) by (destruct test; simpl; [congruence|lia]).
  unfold hits in Qb. change (length (filter _ (combine rec test))) with (hits_of (combine rec test)) in Qb.
  rewrite <- Qsum_hits in Qb.
  destruct topn as [|tn]; [lia|].
  assert (HI : forall x, x / inject_Z (Z.of_nat (S tn)) == inv_rank tn * x).
  { intros x. unfold Qdiv. rewrite Qmult_comm. reflexivity. }
  split; [|split].
  - rewrite Qa, Qb, HI.
    assert (X : inv_rank tn * (Qsum (map hitq (combine rec test)) / inject_Z (Z.of_nat (length test)))
            == (inv_rank tn * Qsum (map hitq (combine rec test))) / inject_Z (Z.of_nat (length test))).
    { unfold Qdiv. ring. }
    rewrite X. apply Qdiv_le_compat; [apply len_pos; auto|].
    rewrite <- Qsum_scale. apply Qsum_le. intros [r t] Hin. apply hit_le_rr.
    apply in_combine_l in Hin. rewrite Forall_forall in HF. apply HF; auto.
  - rewrite Qa, Qb. apply Qdiv_le_compat; [apply len_pos; auto|].
    apply Qsum_le. intros x _. apply rr_le_hit.
  - destruct (hr_exact_main rec test) as [_ [_ H]]. destruct (H (Nat.eq_le_incl _ _ (eq_sym HL)) Hne) as [q [E [_ [_ H1]]]].
    rewrite Eb in E; inversion E; subst; auto.
Qed.

(** * WJI *)

Fixpoint lookup_last (x : Z) (es : list (Z * Q)) : option Q :=
  match es with
  | [] => None
  | (y, w) :: r => match lookup_last x r with
                   | Some w' => Some w'
                   | None => if (x =? y)%Z then Some w else None
                   end
  end.

Lemma nth_set_nth i j (v d : Q) l : (i < length l)%nat ->
  nth j (set_nth i v l) d = if (i =? j)%nat then v else nth j l d.
Proof.
  revert i j. induction l as [|x l IH]; intros [|i] [|j] H; simpl in *; try lia; auto.
  rewrite IH by lia. destruct (i =? j)%nat; auto.
Qed.

Lemma assign_fold N : forall es b,
  length b = N ->
  (forall x w, In (x, w) es -> (0 <= x < Z.of_nat N)%Z) ->
  exists b', fold_left (assign1 N) es (Ok b) = Ok b' /\ length b' = N
    /\ forall x, (0 <= x < Z.of_nat N)%Z ->
         nth (Z.to_nat x) b' 0 = match lookup_last x es with Some w => w | None => nth (Z.to_nat x) b 0 end.
Proof.
  induction es as [|[y w] es IH]; intros b HL HV; simpl; [exists b; auto|].
  assert (Hy : (0 <= y < Z.of_nat N)%Z) by (apply (HV y w); left; auto).
  assert ((y <? 0)%Z = false) as -> by (apply Z.ltb_ge; lia).
  assert ((0 <=? y)%Z = true) as -> by (apply Z.leb_le; lia).
  assert ((y <? Z.of_nat N)%Z = true) as -> by (apply Z.ltb_lt; lia).
  cbn [andb].
  destruct (IH (set_nth (Z.to_nat y) w b)) as [b' [E [HL' HN]]].
  - rewrite set_nth_length; auto.
  - intros x w' H. apply (HV x w'). right; auto.
  - exists b'. split; auto. split; auto. intros x Hx. rewrite HN by auto.
    destruct (lookup_last x es); auto.
    rewrite nth_set_nth by lia.
    destruct (Z.eqb_spec x y) as [->|Nxy]; [rewrite Nat.eqb_refl; auto|].
    assert ((Z.to_nat y =? Z.to_nat x)%nat = false) as ->; auto.
    apply Nat.eqb_neq. lia.
Qed.

Lemma assign_fold_err N es e : fold_left (assign1 N) es (Err e) = Err e.
Proof. induction es; simpl; auto. Qed.

Lemma assign_fold_bad N : forall es b,
  (forall x w, In (x, w) es -> (0 <= x)%Z) ->
  (exists x w, In (x, w) es /\ (Z.of_nat N <= x)%Z) ->
  fold_left (assign1 N) es (Ok b) = Err OutOfBounds.
Proof.
  induction es as [|[y w] es IH]; intros b HN [x [w' [H Hx]]]; [destruct H|].
  simpl. assert (Hy : (0 <= y)%Z) by (apply (HN y w); left; auto).
  assert ((y <? 0)%Z = false) as -> by (apply Z.ltb_ge; lia).
  assert ((0 <=? y)%Z = true) as -> by (apply Z.leb_le; lia). cbn [andb].
  destruct (Z.ltb_spec y (Z.of_nat N)).
  - apply IH; [intros; eapply HN; right; eauto|].
    destruct H as [H|H]; [inversion H; subst; lia|]. exists x, w'; auto.
  - apply assign_fold_err.
Qed.

(** Weight of an item in a row: that of its last occurrence. *)
Definition weight (row : list Z) (x : Z) : Q :=
  match lookup_last x (combine row (map inv_rank (seq 0 (length row)))) with
  | Some w => w | None => 0
  end.

Definition valid_row (N topn : nat) (row : list Z) : Prop :=
  length row = topn /\ forall x, In x row -> (0 <= x < Z.of_nat N)%Z.

Lemma bow_ok N topn row :
  valid_row N topn row ->
  exists b, bow N topn row = Ok b /\ length b = N
    /\ forall x, (0 <= x < Z.of_nat N)%Z -> nth (Z.to_nat x) b 0 = weight row x.
Proof.
  intros [HL HV]. unfold bow. rewrite HL, Nat.eqb_refl. cbn [negb].
  destruct (assign_fold N (combine row (map inv_rank (seq 0 topn))) (repeat 0 N)) as [b [E [HLb HN]]].
  - apply repeat_length.
  - intros x w H. apply in_combine_l in H. auto.
  - exists b. split; auto. split; auto. intros x Hx. rewrite HN by auto.
    unfold weight. rewrite HL. destruct (lookup_last _ _); auto.
    apply nth_repeat.
Qed.

Lemma lookup_last_spec x : forall row j,
  match lookup_last x (combine row (map inv_rank (seq j (length row)))) with
  | Some w => exists i, nth_error row i = Some x /\ w = inv_rank (j + i)
  | None => ~ In x row
  end.
Proof.
  induction row as [|y row IH]; intros j; simpl; auto.
  specialize (IH (S j)). destruct (lookup_last x _) as [w|].
  - destruct IH as [i [Hi ->]]. exists (S i). split; auto. f_equal. lia.
  - destruct (Z.eqb_spec x y) as [->|N].
    + exists 0%nat. split; [reflexivity|]. rewrite Nat.add_0_r. reflexivity.
    + intuition.
Qed.

Lemma weight_spec row x :
  (exists i, nth_error row i = Some x /\ weight row x = inv_rank i) \/ (~ In x row /\ weight row x = 0).
Proof.
  unfold weight. pose proof (lookup_last_spec x row 0) as H.
  destruct (lookup_last x _); [left; destruct H as [i [Hi ->]]; exists i; auto|right; auto].
Qed.

Lemma weight_nonneg row x : 0 <= weight row x.
Proof.
  destruct (weight_spec row x) as [[i [_ ->]]|[_ ->]]; [apply Qlt_le_weak, inv_rank_pos|apply Qle_refl].
Qed.

Lemma weight_pos_iff row x : 0 < weight row x <-> In x row.
Proof.
  destruct (weight_spec row x) as [[i [Hi ->]]|[N ->]]; split; intros H.
  - eapply nth_error_In; eauto.
  - apply inv_rank_pos.
  - apply Qlt_irrefl in H; destruct H.
  - contradiction.
Qed.

Lemma weight_NoDup row i x : NoDup row -> nth_error row i = Some x -> weight row x = inv_rank i.
Proof.
  intros ND Hi. destruct (weight_spec row x) as [[j [Hj ->]]|[N _]].
  - f_equal. eapply (proj1 (NoDup_nth_error row) ND).
    + apply nth_error_Some. congruence.
    + congruence.
  - exfalso. apply N. eapply nth_error_In; eauto.
Qed.

Definition mins (u v : list Q) : list Q := map (fun p => Qmin (fst p) (snd p)) (combine u v).
Definition maxs (u v : list Q) : list Q := map (fun p => Qmax (fst p) (snd p)) (combine u v).

Lemma wji_fold l : forall n d,
  let '(n', d') := fold_left (fun nd uv => (fst nd + Qmin (fst uv) (snd uv),
                             snd nd + Qmax (fst uv) (snd uv))) l (n, d) in
  n' == n + Qsum (map (fun p => Qmin (fst p) (snd p)) l)
  /\ d' == d + Qsum (map (fun p => Qmax (fst p) (snd p)) l).
Proof.
  induction l as [|x l IH]; intros n d; simpl; [split; ring|].
  specialize (IH (n + Qmin (fst x) (snd x)) (d + Qmax (fst x) (snd x))).
  destruct (fold_left _ l _) as [n' d']. destruct IH as [-> ->]. split; ring.
Qed.

Lemma wji_ok u v :
  0 < Qsum (maxs u v) ->
  exists q, wji u v = Ok q /\ q == Qsum (mins u v) / Qsum (maxs u v).
Proof.
  intros H. unfold wji. pose proof (wji_fold (combine u v) 0 0) as F.
  destruct (fold_left _ (combine u v) (0, 0)) as [n d]. destruct F as [Fn Fd].
  rewrite Qplus_0_l in Fn, Fd. fold (mins u v) in Fn. fold (maxs u v) in Fd.
  destruct (Qeq_bool d 0) eqn:E.
  - apply Qeq_bool_iff in E. rewrite Fd in E. rewrite E in H. discriminate.
  - eexists; split; [reflexivity|]. rewrite Fn, Fd. reflexivity.
Qed.

Lemma Qsum_nonneg l : (forall x, In x l -> 0 <= x) -> 0 <= Qsum l.
Proof.
  induction l as [|x l IH]; intros H; simpl; [apply Qle_refl|].
  rewrite <- (Qplus_0_l 0). apply Qplus_le_compat; [apply H; left; auto|]. apply IH; intros; apply H; right; auto.
Qed.

Lemma Qsum_pos l x : (forall x, In x l -> 0 <= x) -> In x l -> 0 < x -> 0 < Qsum l.
Proof.
  induction l as [|y l IH]; intros H Hin Hx; [destruct Hin|]. simpl.
  assert (Hy : 0 <= y) by (apply H; left; auto).
  assert (Hl : 0 <= Qsum l) by (apply Qsum_nonneg; intros; apply H; right; auto).
  destruct Hin as [->|Hin]; [lra|].
  assert (0 < Qsum l) by (apply IH; auto; intros; apply H; right; auto). lra.
Qed.

Lemma Qsum_zero l : (forall x, In x l -> 0 <= x) -> Qsum l == 0 -> forall x, In x l -> x == 0.
Proof.
  intros H E x Hin. destruct (Qlt_le_dec 0 x) as [P|P].
  - pose proof (Qsum_pos l x H Hin P). rewrite E in H0. discriminate.
  - apply Qle_antisym; auto.
Qed.

Lemma Qsum_eq_zero l : (forall x, In x l -> x == 0) -> Qsum l == 0.
Proof.
  induction l as [|x l IH]; intros H; simpl; [reflexivity|].
  rewrite (H x) by (left; auto). rewrite IH by (intros; apply H; right; auto). reflexivity.
Qed.

Lemma Qsum_sub {A} (f g : A -> Q) l :
  Qsum (map f l) - Qsum (map g l) == Qsum (map (fun x => f x - g x) l).
Proof. induction l as [|x l IH]; simpl; [reflexivity|]. rewrite <- IH. ring. Qed.

Lemma in_combine_nth (u v : list Q) a b :
  In (a, b) (combine u v) -> exists n, (n < length u)%nat /\ (n < length v)%nat /\ nth n u 0 = a /\ nth n v 0 = b.
Proof.
  revert v. induction u as [|x u IH]; intros [|y v] H; simpl in *; try tauto.
  destruct H as [H|H].
  - inversion H; subst. exists 0%nat. repeat split; simpl; lia.
  - destruct (IH v H) as [n [H1 [H2 [H3 H4]]]]. exists (S n). repeat split; simpl; auto; lia.
Qed.

Lemma nth_in_combine (u v : list Q) n :
  (n < length u)%nat -> (n < length v)%nat -> In (nth n u 0, nth n v 0) (combine u v).
Proof.
  revert v n. induction u as [|x u IH]; intros [|y v] [|n] H1 H2; simpl in *; try lia; auto.
  right. apply IH; lia.
Qed.

Section User.
  Variables (N topn : nat) (r1 r2 : list Z).
  Hypothesis V1 : valid_row N topn r1.
  Hypothesis V2 : valid_row N topn r2.
  Hypothesis T : (1 <= topn)%nat.

  Lemma row_item : exists x, In x r1 /\ (0 <= x < Z.of_nat N)%Z.
  Proof.
    destruct V1 as [HL HV]. destruct r1 as [|x r]; simpl in HL; [lia|].
    exists x. split; [left; auto|]. apply HV; left; auto.
  Qed.

  Lemma wji_user_parts :
    exists b1 b2, bow N topn r1 = Ok b1 /\ bow N topn r2 = Ok b2
    /\ (forall a b, In (a, b) (combine b1 b2) <->
          exists x, (0 <= x < Z.of_nat N)%Z /\ a = weight r1 x /\ b = weight r2 x)
    /\ 0 < Qsum (maxs b1 b2) /\ 0 <= Qsum (mins b1 b2) <= Qsum (maxs b1 b2).
  Proof.
    destruct (bow_ok _ _ _ V1) as [b1 [E1 [L1 W1]]].
    destruct (bow_ok _ _ _ V2) as [b2 [E2 [L2 W2]]].
    exists b1, b2. split; auto. split; auto.
    assert (HC : forall a b, In (a, b) (combine b1 b2) <->
          exists x, (0 <= x < Z.of_nat N)%Z /\ a = weight r1 x /\ b = weight r2 x).
    { intros a b. split.
      - intros H. apply in_combine_nth in H as [n [H1 [H2 [<- <-]]]].
        exists (Z.of_nat n). split; [lia|]. rewrite <- W1, <- W2 by lia. rewrite Nat2Z.id. auto.
      - intros [x [Hx [-> ->]]]. rewrite <- W1, <- W2 by auto. apply nth_in_combine; lia. }
    split; auto.
    assert (HN : forall a b, In (a, b) (combine b1 b2) -> 0 <= a /\ 0 <= b).
    { intros a b H. apply HC in H as [x [_ [-> ->]]]. split; apply weight_nonneg. }
    split; [|split].
    - destruct row_item as [x [Hx Hr]].
      apply (Qsum_pos _ (Qmax (weight r1 x) (weight r2 x))).
      + intros q Hq. apply in_map_iff in Hq as [[a b] [<- H]]. apply HN in H as [Ha _]. simpl.
        eapply Qle_trans; [exact Ha|apply Q.le_max_l].
      + apply in_map_iff. exists (weight r1 x, weight r2 x). split; auto. apply HC; eauto.
      + eapply Qlt_le_trans; [apply weight_pos_iff; exact Hx|apply Q.le_max_l].
    - apply Qsum_nonneg. intros q Hq. apply in_map_iff in Hq as [[a b] [<- H]].
      apply HN in H as [Ha Hb]. simpl. apply Q.min_glb; auto.
    - apply Qsum_le. intros [a b] _. simpl. eapply Qle_trans; [apply Q.le_min_l|apply Q.le_max_l].
  Qed.

  Lemma wji_user_ok :
    exists q, wji_user N topn r1 r2 = Ok q /\ 0 <= q <= 1
      /\ (q == 0 <-> forall x, In x r1 -> ~ In x r2)
      /\ (NoDup r1 -> NoDup r2 -> q == 1 -> r1 = r2)
      /\ (r1 = r2 -> q == 1).
  Proof.
    destruct wji_user_parts as [b1 [b2 [E1 [E2 [HC [HP [H0 H1]]]]]]].
    unfold wji_user. rewrite E1, E2. cbn [bind].
    destruct (wji_ok b1 b2 HP) as [q [E Q]]. exists q. split; auto.
    assert (NZ : ~ Qsum (maxs b1 b2) == 0) by (intros X; rewrite X in HP; discriminate).
    assert (QM : Qsum (mins b1 b2) == q * Qsum (maxs b1 b2)) by (rewrite Q; field; auto).
    assert (EQ1 : q == 1 <-> Qsum (maxs b1 b2) - Qsum (mins b1 b2) == 0).
    { rewrite QM. split; intros X.
      - rewrite X. ring.
      - assert ((1 - q) * Qsum (maxs b1 b2) == 0) by (rewrite <- X; ring).
        apply Qmult_integral in H as [H|H]; [lra|contradiction]. }
    unfold mins, maxs in EQ1. rewrite Qsum_sub in EQ1.
    assert (HD : forall y, In y (map (fun x => Qmax (fst x) (snd x) - Qmin (fst x) (snd x)) (combine b1 b2)) -> 0 <= y).
    { intros y Hy. apply in_map_iff in Hy as [[a b] [<- _]]. simpl.
      pose proof (Q.le_min_l a b). pose proof (Q.le_max_l a b). lra. }
    split; [|split; [|split]].
    - split.
      + rewrite Q. apply Qle_shift_div_l; auto. rewrite Qmult_0_l. auto.
      + rewrite Q. apply Qle_shift_div_r; auto. rewrite Qmult_1_l. auto.
    - assert (EQ0 : q == 0 <-> Qsum (mins b1 b2) == 0).
      { rewrite QM. split; intros X; [rewrite X; ring|].
        apply Qmult_integral in X as [X|X]; [auto|contradiction]. }
      rewrite EQ0. split.
      + intros X x I1 I2.
        assert (Hx : (0 <= x < Z.of_nat N)%Z) by (apply V1; auto).
        assert (M : Qmin (weight r1 x) (weight r2 x) == 0).
        { apply (Qsum_zero (mins b1 b2)); auto.
          - intros y Hy. apply in_map_iff in Hy as [[a b] [<- Hab]]. simpl.
            apply HC in Hab as [z [_ [-> ->]]]. apply Q.min_glb; apply weight_nonneg.
          - apply in_map_iff. exists (weight r1 x, weight r2 x). split; auto. apply HC; eauto. }
        apply weight_pos_iff in I1, I2.
        assert (0 < Qmin (weight r1 x) (weight r2 x)) by (apply Q.min_glb_lt; auto).
        rewrite M in H. discriminate.
      + intros X. apply Qsum_eq_zero. intros y Hy. apply in_map_iff in Hy as [[a b] [<- Hab]].
        apply HC in Hab as [z [_ [-> ->]]]. simpl.
        destruct (weight_spec r1 z) as [[i [Hi _]]|[_ W]].
        * assert (~ In z r2) by (apply X; eapply nth_error_In; eauto).
          destruct (weight_spec r2 z) as [[j [Hj _]]|[_ ->]]; [exfalso; apply H; eapply nth_error_In; eauto|].
          apply Q.min_r, weight_nonneg.
        * rewrite W. apply Q.min_l, weight_nonneg.
    - intros ND1 ND2 X. apply EQ1 in X.
      assert (WE : forall x, (0 <= x < Z.of_nat N)%Z -> weight r1 x == weight r2 x).
      { intros x Hx.
        assert (M : Qmax (weight r1 x) (weight r2 x) - Qmin (weight r1 x) (weight r2 x) == 0).
        { apply (Qsum_zero _ HD X). apply in_map_iff. exists (weight r1 x, weight r2 x).
          split; auto. apply HC; eauto. }
        pose proof (Q.le_min_l (weight r1 x) (weight r2 x)).
        pose proof (Q.le_min_r (weight r1 x) (weight r2 x)).
        pose proof (Q.le_max_l (weight r1 x) (weight r2 x)).
        pose proof (Q.le_max_r (weight r1 x) (weight r2 x)). lra. }
      destruct V1 as [L1 HV1]. destruct V2 as [L2 HV2].
      apply nth_error_ext_length; [congruence|].
      intros n x Hn. assert (Hx : (0 <= x < Z.of_nat N)%Z) by (apply HV1; eapply nth_error_In; eauto).
      specialize (WE x Hx). rewrite (weight_NoDup r1 n x ND1 Hn) in WE.
      destruct (weight_spec r2 x) as [[j [Hj W]]|[_ W]].
      * rewrite W in WE. apply inv_rank_inj in WE. subst; auto.
      * rewrite W in WE. pose proof (inv_rank_pos n). rewrite WE in H. discriminate.
    - intros X. apply EQ1. apply Qsum_eq_zero. intros y Hy. apply in_map_iff in Hy as [[a b] [<- Hab]].
      apply HC in Hab as [z [_ [-> ->]]]. simpl. rewrite X.
      rewrite Q.max_id, Q.min_id. ring.
  Qed.
End User.
