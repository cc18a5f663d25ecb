(** Proofs about the published statistics. *)
From Coq Require Import ZArith QArith Qround Lia Lqa List Bool Sorting.Sorted Sorting.Permutation String.
From Verif Require Import Prelude Prelude_proofs DataPrep_model DataPrep_spec DataPrep_main Pcore_model Pcore_spec Pcore_main Stream_model Stream_spec
  Stream_main Tables_model Tables_spec Tables_main Pipe_model Rawlog_spec Rawlog_main Stats_model Stats_spec.
Import ListNotations.
Open Scope Z_scope.
Local Notation length := List.length.

Lemma nearest_integer (x : Q) z : (x == inject_Z z)%Q -> nearest x = z.
Proof.
  intro E. destruct (nearest_near x) as [L U]. set (n := nearest x) in *. clearbody n. setoid_rewrite E in L. setoid_rewrite E in U.
  unfold Qle, Qminus, Qplus, Qopp, inject_Z in L, U. cbn in L, U. lia.
Qed.
Lemma round2_cents x : to_cents (round2 x) x.
Proof.
  unfold to_cents, round2. destruct (nearest_near (x * 100)) as [L U]. set (n := inject_Z (nearest (x * 100))) in *. clearbody n.
  assert (E : (n / 100 == n * (1 # 100))%Q) by reflexivity. rewrite E. split; lra.
Qed.
Lemma round2_exact x z : (x * 100 == inject_Z z)%Q -> (round2 x == x)%Q.
Proof. intro E. unfold round2. rewrite (nearest_integer _ _ E), <- E. field. Qed.

Lemma different_unique l : Z.of_nat (length (unique l)) = different l.
Proof. unfold different. now rewrite (Permutation_length (nodup_unique_perm l)). Qed.
Lemma np_unique_nodup l : Permutation (np_unique l) (nodup Z.eq_dec l).
Proof. unfold np_unique. rewrite <- sort_stable_perm. symmetry. apply nodup_unique_perm. Qed.
Lemma counts_eq t : user_counts t = map (fun u => Z.of_nat (rows_of t u)) (np_unique (map tb_user t)).
Proof. unfold user_counts, groupby. rewrite map_map. reflexivity. Qed.
Lemma counts_sum t : fold_right Z.add 0 (user_counts t) = Z.of_nat (length t).
Proof.
  rewrite <- (Permutation_length (groupby_perm tb_user t)). unfold user_counts. induction (groupby tb_user t) as [|g l IH]; cbn; auto.
  rewrite app_length, IH. lia.
Qed.

Lemma zsort_sorted l : StronglySorted Z.le (Prelude.sort_stable Z.leb l).
Proof.
  assert (H := sort_stable_sorted Z.leb Zleb_total Zle_bool_trans l). eapply sorted_impl_in; [|exact H]. cbn. intros x y _ _ E. now apply Z.leb_le.
Qed.
Lemma median_main l : l <> [] -> exists m, median l = Some m /\ is_median l m /\ (exists z, (m * 2 == inject_Z z)%Q).
Proof.
  intro NE. assert (P := sort_stable_perm Z.leb l). assert (S := zsort_sorted l). unfold median. set (s := Prelude.sort_stable Z.leb l) in *. cbv zeta.
  assert (LP : (0 < length l)%nat) by (destruct l; [congruence|cbn; lia]). assert (LS := Permutation_length P).
  destruct (Nat.eqb_spec (length l) 0) as [|_]; [lia|].
  assert (NT : forall i, (i < length l)%nat -> nth_error s i = Some (nth i s 0)) by (intros i I; apply nth_error_nth'; lia).
  assert (D := Nat.div2_odd (length l)). rewrite <- Nat.div2_div in *. destruct (Nat.odd (length l)) eqn:O; cbn [Nat.b2n] in D.
  - exists (inject_Z (nth (Nat.div2 (length l)) s 0)). split; [reflexivity|]. split.
    + exists s, (nth (Nat.div2 (length l)) s 0), (nth (Nat.div2 (length l)) s 0). split; [exact P|]. split; [exact S|].
      assert (E : Nat.div2 (length l - 1) = Nat.div2 (length l)).
      { rewrite D at 1. replace (2 * Nat.div2 (length l) + 1 - 1)%nat with (2 * Nat.div2 (length l))%nat by lia. now rewrite Nat.div2_double. }
      rewrite E. split; [apply NT; lia|]. split; [apply NT; lia|]. field.
    + exists (nth (Nat.div2 (length l)) s 0 * 2). rewrite inject_Z_mult. reflexivity.
  - exists ((inject_Z (nth (Nat.div2 (length l) - 1) s 0%Z) + inject_Z (nth (Nat.div2 (length l)) s 0%Z)) / 2)%Q. split; [reflexivity|]. split.
    + exists s, (nth (Nat.div2 (length l) - 1) s 0), (nth (Nat.div2 (length l)) s 0). split; [exact P|]. split; [exact S|].
      assert (E : Nat.div2 (length l - 1) = (Nat.div2 (length l) - 1)%nat).
      { rewrite D at 1. replace (2 * Nat.div2 (length l) + 0 - 1)%nat with (Datatypes.S (2 * (Nat.div2 (length l) - 1)))%nat by lia. now rewrite Nat.div2_succ_double. }
      rewrite E. split; [apply NT; lia|]. split; [apply NT; lia|]. reflexivity.
    + exists (nth (Nat.div2 (length l) - 1) s 0 + nth (Nat.div2 (length l)) s 0). rewrite inject_Z_plus. field.
Qed.
Lemma is_median_perm l l' m m' : Permutation l l' -> (m == m')%Q -> is_median l m -> is_median l' m'.
Proof.
  intros P E (s & x & y & Q & S & X & Y & M). exists s, x, y. rewrite <- (Permutation_length P), <- P, <- E. repeat split; auto.
Qed.
Lemma is_median_bounds l m (lo : Z) : is_median l m -> (forall x, In x l -> lo <= x) -> (inject_Z lo <= m)%Q.
Proof.
  intros (s & x & y & P & _ & X & Y & ->) H. apply nth_error_In in X, Y.
  apply (Permutation_in _ (Permutation_sym P)) in X, Y. apply H in X, Y. rewrite Zle_Qle in X, Y.
  assert (E : ((inject_Z x + inject_Z y) / 2 == (inject_Z x + inject_Z y) * (1 # 2))%Q) by reflexivity. rewrite E. lra.
Qed.

Lemma different_pos l : l <> [] -> 0 < different l.
Proof.
  intro NE. unfold different. destruct l as [|x l]; [congruence|]. destruct (nodup Z.eq_dec (x :: l)) eqn:E; [|cbn; lia].
  assert (I : In x (nodup Z.eq_dec (x :: l))) by (apply nodup_In; now left). rewrite E in I. destruct I.
Qed.

Notation described df s :=
  (df <> [] /\ s_users s = different (map tb_user df) /\ s_items s = different (map tb_item df) /\ s_dates s = different (map tb_day df) /\
   s_interactions s = Z.of_nat (length df) /\
   is_median (map (fun u => Z.of_nat (rows_of df u)) (nodup Z.eq_dec (map tb_user df))) (s_median s) /\
   to_cents (s_mean s) (inject_Z (s_interactions s) / inject_Z (s_users s)) /\
   to_cents (s_density s) (inject_Z (s_interactions s) / inject_Z (s_users s * s_items s) * 100)).
Lemma stats_main df :
  match print_recsys_df_stats df with Err e => df = [] /\ e = ZeroDivisionError | Ok s => described df s end.
Proof.
  unfold print_recsys_df_stats. rewrite !different_unique.
  destruct df as [|r df0]; [cbn; auto|]. set (df := r :: df0). assert (NE : df <> []) by discriminate.
  assert (NM : forall f : trow -> Z, map f df <> []) by discriminate.
  pose proof (different_pos _ (NM tb_user)) as PU. pose proof (different_pos _ (NM tb_item)) as PI.
  destruct (Z.eqb_spec (different (map tb_user df) * different (map tb_item df)) 0) as [|_]; [nia|].
  assert (CN : user_counts df <> []).
  { rewrite counts_eq. intro E. apply map_eq_nil in E. pose proof (np_unique_nodup (map tb_user df)) as P. rewrite E in P.
    apply Permutation_nil in P. unfold different in PU. rewrite P in PU. cbn in PU. lia. }
  destruct (median_main _ CN) as (m & -> & M & (z & E2)).
  split; [exact NE|]. cbn [s_users s_items s_dates s_interactions s_median s_mean s_density].
  split; [reflexivity|]. split; [reflexivity|]. split; [reflexivity|]. split; [reflexivity|]. split; [|split].
  - eapply is_median_perm; [| |exact M].
    + rewrite counts_eq. apply Permutation_map. apply np_unique_nodup.
    + symmetry. apply (round2_exact m (z * 50)). rewrite inject_Z_mult, <- E2. ring.
  - rewrite counts_sum. replace (Z.of_nat (length (user_counts df))) with (different (map tb_user df)); [apply round2_cents|].
    unfold different. rewrite counts_eq, map_length. now rewrite (Permutation_length (np_unique_nodup (map tb_user df))).
  - apply round2_cents.
Qed.

(** * The table *)
Lemma truncate_floor x : (0 <= x)%Q -> (inject_Z (truncate x) <= x /\ x < inject_Z (truncate x + 1))%Q.
Proof.
  destruct x as [n d]. unfold truncate, Qle, Qlt, inject_Z. cbn. intro H.
  rewrite Z.quot_div_nonneg by lia. pose proof (Z.mul_div_le n (Z.pos d) ltac:(lia)). pose proof (Z.mul_succ_div_gt n (Z.pos d) ltac:(lia)).
  split; lia.
Qed.
Lemma median_nonneg df m : is_median (map (fun u => Z.of_nat (rows_of df u)) (nodup Z.eq_dec (map tb_user df))) m -> (0 <= m)%Q.
Proof. intro H. apply (is_median_bounds _ _ 0 H). intros x I. apply in_map_iff in I as (u & <- & _). lia. Qed.

Notation line_of df label l :=
  (exists d, let '(name, nu, ni, n, shown, density) := l in
     name = label /\ nu = different (map tb_user df) /\ ni = different (map tb_item df) /\ n = Z.of_nat (length df) /\
     is_median (map (fun u => Z.of_nat (rows_of df u)) (nodup Z.eq_dec (map tb_user df))) d /\
     (inject_Z shown <= d /\ d < inject_Z (shown + 1))%Q /\ to_cents density (inject_Z n / inject_Z (nu * ni) * 100)).
Lemma table_main (tables : string -> list trow) :
  match data_stats_table (fun n => print_recsys_df_stats (tables n)) with
  | Err e => e = ZeroDivisionError /\ exists n, In n (map fst stats_names) /\ tables n = []
  | Ok lines => Forall2 (fun n l => tables (fst n) <> [] /\ line_of (tables (fst n)) (snd n) l) stats_names lines
  end.
Proof.
  unfold data_stats_table. induction stats_names as [|n ns IH]; cbn [mapM map]; [constructor|].
  pose proof (stats_main (tables (fst n))) as H. destruct (print_recsys_df_stats (tables (fst n))) as [s|e].
  - cbn [bind]. destruct (mapM _ ns) as [lines|e] eqn:M; cbn [bind].
    + constructor; [|exact IH]. destruct H as (NE & EU & EI & _ & EN & EM & _ & ED). split; [exact NE|]. exists (s_median s).
      split; [reflexivity|]. split; [exact EU|]. split; [exact EI|]. split; [exact EN|]. split; [exact EM|].
      split; [apply truncate_floor; apply (median_nonneg _ _ EM)|exact ED].
    + destruct IH as [-> (k & I & E)]. split; [reflexivity|]. exists k. split; [now right|exact E].
  - destruct H as [E ->]. cbn [bind]. split; [reflexivity|]. exists (fst n). split; [now left|exact E].
Qed.

(** * Bounds *)
Lemma nodup_pairs_bound (df : list trow) : NoDup (map (fun r => (tb_user r, tb_item r)) df) ->
  Z.of_nat (length df) <= different (map tb_user df) * different (map tb_item df).
Proof.
  intro N. unfold different. rewrite <- Nat2Z.inj_mul. apply inj_le. rewrite <- prod_length, <- (map_length (fun r => (tb_user r, tb_item r)) df).
  apply NoDup_incl_length; [exact N|]. intros [u i] I. apply in_map_iff in I as (r & E & I). injection E as <- <-.
  apply in_prod; apply nodup_In; now apply in_map.
Qed.
Lemma density_main df s : print_recsys_df_stats df = Ok s -> NoDup (map (fun r => (tb_user r, tb_item r)) df) -> (0 <= s_density s <= 100)%Q.
Proof.
  intros E N. unfold print_recsys_df_stats in E. rewrite !different_unique in E.
  destruct (Z.eqb_spec (different (map tb_user df) * different (map tb_item df)) 0) as [|NZ]; [discriminate|].
  destruct (median _) as [m|]; [|discriminate]. injection E as <-. cbn [s_density].
  pose proof (nodup_pairs_bound df N) as B. set (n := Z.of_nat (length df)) in *. set (p := _ * _) in *.
  assert (PP : 0 < p). { unfold p in *. unfold different in *. nia. }
  assert (R : 0 <= nearest (inject_Z n / inject_Z p * 100 * 100) <= 10000).
  { apply nearest_range.
    - assert (H : (0 <= inject_Z n / inject_Z p)%Q).
      { apply Qle_shift_div_l; [change 0%Q with (inject_Z 0); rewrite <- Zlt_Qlt; exact PP|]. rewrite Qmult_0_l. change 0%Q with (inject_Z 0); rewrite <- Zle_Qle. unfold n. lia. }
      nra.
    - assert (H : (inject_Z n / inject_Z p <= 1)%Q).
      { apply Qle_shift_div_r; [change 0%Q with (inject_Z 0); rewrite <- Zlt_Qlt; exact PP|]. rewrite Qmult_1_l. now rewrite <- Zle_Qle. }
      change (inject_Z 10000) with (1 * 100 * 100)%Q. nra. }
  unfold round2. set (k := nearest _) in *. unfold Qdiv, Qmult, Qinv, Qle, inject_Z. cbn. lia.
Qed.

(** * Statistics of a log *)
Lemma stats_content t t' : dated t -> dated t' -> Permutation (map content t) (map content t') ->
  print_recsys_df_stats t = print_recsys_df_stats t'.
Proof.
  intros D D' P.
  assert (PU : Permutation (map tb_user t) (map tb_user t')).
  { apply (Permutation_map r_user) in P. now rewrite !map_map in P. }
  assert (PI : Permutation (map tb_item t) (map tb_item t')).
  { apply (Permutation_map r_item) in P. now rewrite !map_map in P. }
  assert (PD : Permutation (map tb_day t) (map tb_day t')).
  { apply (Permutation_map (fun r => round_day (r_ts r))) in P. rewrite !map_map in P.
    rewrite (map_ext_in tb_day (fun x => round_day (r_ts (content x))) t D), (map_ext_in tb_day (fun x => round_day (r_ts (content x))) t' D'). exact P. }
  assert (DF : forall l l', Permutation l l' -> different l = different l').
  { intros l l' Q. unfold different. f_equal. rewrite <- !(Permutation_length (np_unique_nodup _)). now rewrite (np_unique_perm l l' Q). }
  assert (C : user_counts t = user_counts t').
  { unfold user_counts.
    assert (G := counts_same content _ _ (groupby_same content tb_user tb_user t t' r_user (fun _ _ => eq_refl) (fun _ _ => eq_refl) P)).
    apply (f_equal (map snd)) in G. now rewrite !map_map in G. }
  unfold print_recsys_df_stats. rewrite !different_unique, C, (DF _ _ PU), (DF _ _ PI), (DF _ _ PD).
  apply Permutation_length in P. rewrite !map_length in P. now rewrite P.
Qed.
Lemma encoded_dated sort data : sorts_by raw_time sort -> dated (prepare_encoded sort data).
Proof. intro S. apply chronological_dated. apply (proj1 (proj1 (prepared_main sort data S))). Qed.
Lemma log_stats_main (sort sort' : list raw -> list raw) data data' : sorts_by raw_time sort -> sorts_by raw_time sort' -> Permutation data data' ->
  print_recsys_df_stats (prepare_encoded sort data) = print_recsys_df_stats (prepare_encoded sort' data') /\
  (forall keep, ~ torn data (length data - keep) ->
     print_recsys_df_stats (prepare_ml20m sort keep data) = print_recsys_df_stats (prepare_ml20m sort' keep data')).
Proof.
  intros S S' P. split.
  - apply stats_content; try now apply encoded_dated. rewrite !encoded_contents by assumption. cbn [skipn].
    rewrite (map_ext _ _ (encoded_perm data data' P)). apply Permutation_map. rewrite <- (proj1 (S data)), P. apply S'.
  - intros keep T.
    assert (C : forall sort d, sorts_by raw_time sort -> map content (prepare_ml20m sort keep d) = map (kept_as_is d) (skipn (length d - keep) (sort d))).
    { intros s d Sd. unfold prepare_ml20m, kept_as_is. set (k := lastn keep (s d)).
      pose proof (table_content (fun x => x) (fun x => x) k) as X. rewrite !map_id in X. rewrite X.
      unfold k, lastn. now rewrite <- (Permutation_length (proj1 (Sd d))). }
    apply stats_content.
    { apply chronological_dated. apply (proj2 (prepared_main sort data S) keep). }
    { apply chronological_dated. apply (proj2 (prepared_main sort' data' S') keep). }
    rewrite !C by assumption. rewrite <- (Permutation_length P). apply Permutation_map.
    assert (Pd : Permutation data (sort data)) by apply S. assert (Pd' : Permutation data (sort' data')) by (rewrite P; apply S').
    assert (A := firstn_determined data _ _ _ T Pd Pd' (proj2 (S data)) (proj2 (S' data'))).
    assert (Q : Permutation (sort data) (sort' data')) by (rewrite <- Pd; exact Pd').
    rewrite <- (firstn_skipn (length data - keep) (sort data)), <- (firstn_skipn (length data - keep) (sort' data')), A in Q.
    now apply Permutation_app_inv_l in Q.
Qed.

Lemma steam_stats_main (sort : list raw -> list raw) data fuel c s : sorts_by raw_time sort -> (length data < fuel)%nat ->
  steam_table raw_user raw_item fuel data = Ok c -> print_recsys_df_stats (prepare_encoded sort c) = Ok s ->
  (5 <= s_median s)%Q /\ (5 <= s_mean s)%Q /\ (0 <= s_density s <= 100)%Q.
Proof.
  intros S F E P. destruct (steam_main raw_user raw_item fuel data F) as (c' & E' & _ & N & M & _). rewrite E in E'. injection E' as <-.
  set (t := prepare_encoded sort c) in *.
  assert (CT : map content t = map (encoded c) (sort c)) by (unfold t; rewrite encoded_contents by exact S; reflexivity).
  assert (PS := proj1 (S c)).
  assert (INV : forall x, In x t -> exists r, In r c /\ content x = encoded c r).
  { intros x I. apply (in_map content) in I. rewrite CT in I. apply in_map_iff in I as (r & <- & I). exists r. split; [|reflexivity].
    apply (Permutation_in _ (Permutation_sym PS)). exact I. }
  assert (R5 : forall x, In x t -> (5 <= rows_of t (tb_user x))%nat).
  { intros x I. destruct (INV x I) as (r & J & EQ). destruct (M r J) as (items & _ & NI & LI & HI & _).
    etransitivity; [exact LI|]. unfold rows_of.
    assert (E1 : length (filter (fun r => tb_user r =? tb_user x) t) = length (filter (fun y => r_user y =? tb_user x) (map content t))).
    { clear. induction t as [|y t IH]; cbn; auto. destruct (tb_user y =? tb_user x); cbn; congruence. }
    rewrite E1, CT.
    rewrite <- (map_length (code_of (map raw_item c)) items), <- (map_length r_item).
    apply NoDup_incl_length.
    - assert (II : forall i, In i items -> In i (map raw_item c)).
      { intros i K. apply HI in K. apply in_map_iff in K as (q & EE & K). injection EE as _ <-. now apply in_map. }
      clear - NI II. induction NI as [|i l NN NI IH]; cbn; constructor.
      + intro K. apply in_map_iff in K as (j & EJ & K). apply NN. replace i with j; auto.
        apply (code_of_inj (map raw_item c)); auto; apply II; [now right|now left].
      + apply IH. intros; apply II; now right.
    - intros k K. apply in_map_iff in K as (i & <- & K). apply HI in K. apply in_map_iff in K as (q & EE & K). injection EE as EU EI.
      apply in_map_iff. exists (encoded c q). split; [cbn; now rewrite EI|]. apply filter_In. split.
      + apply in_map. apply (Permutation_in _ PS). exact K.
      + apply Z.eqb_eq. change (tb_user x) with (r_user (content x)). rewrite EQ. cbn. now rewrite EU. }
  pose proof (stats_main t) as H. fold t in P. rewrite P in H. destruct H as (NE & EU & EI & _ & EN & EM & EA & ED).
  split; [|split].
  - apply (is_median_bounds _ _ 5 EM). intros z I. apply in_map_iff in I as (u & <- & I). apply nodup_In in I.
    apply in_map_iff in I as (x & <- & I). specialize (R5 x I). lia.
  - assert (SUM : 5 * different (map tb_user t) <= Z.of_nat (length t)).
    { rewrite <- counts_sum, counts_eq. unfold different. rewrite <- (Permutation_length (np_unique_nodup (map tb_user t))).
      assert (HU : forall u, In u (np_unique (map tb_user t)) -> (5 <= rows_of t u)%nat).
      { intros u I. apply (proj1 (np_unique_In _ _)) in I. apply in_map_iff in I as (x & <- & I). now apply R5. }
      induction (np_unique (map tb_user t)) as [|u l IH]; cbn [map fold_right length]; [lia|].
      specialize (IH (fun u I => HU u (or_intror I))). specialize (HU u (or_introl eq_refl)). lia. }
    unfold print_recsys_df_stats in P. rewrite !different_unique in P.
    destruct (_ =? 0); [discriminate|]. destruct (median _) as [m|]; [|discriminate]. injection P as <-. cbn [s_mean].
    rewrite counts_sum. replace (Z.of_nat (length (user_counts t))) with (different (map tb_user t)).
    2: { unfold different. rewrite counts_eq, map_length. now rewrite (Permutation_length (np_unique_nodup (map tb_user t))). }
    set (n := Z.of_nat (length t)) in *. set (p := different _) in *.
    assert (PP : 0 < p) by (apply different_pos; destruct t; [congruence|discriminate]).
    assert (X : (5 <= inject_Z n / inject_Z p)%Q).
    { apply Qle_shift_div_l; [change 0%Q with (inject_Z 0); rewrite <- Zlt_Qlt; exact PP|]. change 5%Q with (inject_Z 5). rewrite <- inject_Z_mult, <- Zle_Qle. exact SUM. }
    set (x := (inject_Z n / inject_Z p)%Q) in *. clearbody x. destruct (nearest_near (x * 100)) as [_ U]. unfold round2. set (k := nearest _) in *. clearbody k.
    assert (K : 500 <= k).
    { assert (L : (inject_Z 500 <= inject_Z k + (1 # 2))%Q) by (change (inject_Z 500) with (5 * 100)%Q; nra).
      unfold Qle, Qplus, inject_Z in L. cbn in L. lia. }
    unfold Qdiv, Qmult, Qinv, Qle, inject_Z. cbn. lia.
  - apply (density_main t s P).
    assert (Q : map (fun r => (tb_user r, tb_item r)) t = map (fun y => (r_user y, r_item y)) (map content t)) by (now rewrite map_map).
    rewrite Q, CT, map_map. cbn.
    assert (N' : NoDup (map (fun r => (raw_user r, raw_item r)) (sort c))) by (apply (Permutation_NoDup (Permutation_map _ PS)); exact N).
    assert (II : forall r, In r (sort c) -> In r c) by (intros r; apply Permutation_in; now symmetry).
    clear - N' II. induction (sort c) as [|r l IH]; cbn; constructor; inversion N' as [|? ? X Y]; subst.
    + intro K. apply in_map_iff in K as (q & EQ & K). injection EQ as E1 E2. apply X.
      apply code_of_inj in E1; [|apply in_map; apply II; now right|apply in_map; apply II; now left].
      apply code_of_inj in E2; [|apply in_map; apply II; now right|apply in_map; apply II; now left].
      rewrite <- E1, <- E2. now apply (in_map (fun r => (raw_user r, raw_item r))).
    + apply IH; auto. intros; apply II; now right.
Qed.
