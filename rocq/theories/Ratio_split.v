(** Sizes of the parts of a log. *)
From Coq Require Import ZArith Lia List Bool Sorting.Sorted Sorting.Permutation.
From Verif Require Import Prelude Prelude_proofs DataPrep_model Stream_model Stream_spec Stream_main Tables_model Tables_spec Tables_main Ratio_model Ratio_spec Ratio_main.
Import ListNotations.
Open Scope Z_scope.

Lemma initial_size sort_days t cut hm : sorts_by tb_day sort_days -> chronological t -> 0 <= cut <= Z.of_nat (length t) ->
  exists initial stream left, prepare_data_for_experiment tb_index tb_day sort_days t cut hm = Ok (initial, stream, left) /\
    Z.of_nat (length initial) = cut /\ Z.of_nat (length (concat (map snd stream))) = Z.of_nat (length t) - cut.
Proof.
  intros S (I & _ & D & _) C.
  destruct (prepare_time_main tb_index tb_day sort_days t cut hm S I D) as (initial & stream & left & E & EI & P & _).
  exists initial, stream, left. split; [exact E|]. subst initial. rewrite firstn_length, (Permutation_length P), skipn_length. lia.
Qed.
Lemma encoded_length sort data : sorts_by raw_time sort -> length (prepare_encoded sort data) = length data.
Proof.
  intro S. destruct (prepared_main sort data S) as [[_ (sorted & P & E & _)] _]. apply (f_equal (@length Z)) in E. rewrite !map_length in E.
  rewrite E. symmetry. now apply Permutation_length.
Qed.

Lemma split_main sort_time sort_days data hm :
  sorts_by raw_time sort_time -> sorts_by tb_day sort_days ->
  let n := Z.of_nat (length data) in n < 2 ^ 50 ->
  let cuts t ratio rows :=
    exists initial stream left,
      prepare_data_for_experiment tb_index tb_day sort_days t (int_times (Z.of_nat (length t)) ratio) hm = Ok (initial, stream, left)
      /\ Z.of_nat (length initial) = rows /\ Z.of_nat (length (concat (map snd stream))) = Z.of_nat (length t) - rows in
  (let t := prepare_ml20m sort_time (Z.to_nat (int_times n lit_02)) data in
   Z.of_nat (length t) = n / 5 /\ cuts t lit_04 (2 * (n / 5) / 5))
  /\ (let t := prepare_encoded sort_time data in
      Z.of_nat (length t) = n /\ cuts t lit_08 (4 * n / 5)
      /\ (~ one_short n -> cuts t lit_07 (7 * n / 10)) /\ (one_short n -> cuts t lit_07 (7 * n / 10 - 1))).
Proof.
  intros ST SD n N cuts. assert (N0 : 0 <= n) by (unfold n; lia).
  assert (CU : forall t ratio rows, chronological t -> int_times (Z.of_nat (length t)) ratio = rows -> 0 <= rows <= Z.of_nat (length t) -> cuts t ratio rows).
  { intros t ratio rows C E B. unfold cuts. rewrite E. apply initial_size; auto. }
  split; cbn zeta.
  - assert (E : int_times n lit_02 = n / 5) by (pose proof (fifth_main 0 n ltac:(lia) ltac:(lia)) as F; cbn in F; rewrite Z.mul_1_r in F; exact F).
    destruct (prepared_main sort_time data ST) as [_ M]. destruct (M (Z.to_nat (int_times n lit_02))) as (C & dropped & kept & _ & L & _ & T & _).
    set (t := prepare_ml20m sort_time (Z.to_nat (int_times n lit_02)) data) in *.
    assert (LT : Z.of_nat (length t) = n / 5).
    { apply (f_equal (@length Z)) in T. rewrite !map_length in T. rewrite T, L, E. assert (0 <= n / 5 <= n) by (split; [apply Z.div_pos; lia|apply Z.div_le_upper_bound; lia]). lia. }
    split; [exact LT|]. assert (B : 0 <= n / 5 <= n) by (split; [apply Z.div_pos; lia|apply Z.div_le_upper_bound; lia]).
    apply CU; [exact C| |].
    + rewrite LT. pose proof (fifth_main 1 (n / 5) ltac:(lia) ltac:(lia)) as F. change (2 ^ 1) with 2 in F. rewrite Z.mul_comm. exact F.
    + rewrite LT. split; [apply Z.div_pos; lia|apply Z.div_le_upper_bound; lia].
  - destruct (prepared_main sort_time data ST) as [[C _] _]. pose proof (encoded_length sort_time data ST) as L.
    set (t := prepare_encoded sort_time data) in *. assert (LT : Z.of_nat (length t) = n) by (unfold n; lia).
    destruct (seven_main n ltac:(lia)) as [S1 S2].
    split; [exact LT|]. split; [|split].
    + apply CU; [exact C| |].
      * rewrite LT. pose proof (fifth_main 2 n ltac:(lia) ltac:(lia)) as F. change (2 ^ 2) with 4 in F. rewrite Z.mul_comm. exact F.
      * rewrite LT. split; [apply Z.div_pos; lia|apply Z.div_le_upper_bound; lia].
    + intro H. apply CU; [exact C|rewrite LT; auto|]. rewrite LT. split; [apply Z.div_pos; lia|apply Z.div_le_upper_bound; lia].
    + intro H. apply CU; [exact C|rewrite LT; auto|]. rewrite LT. destruct H as (k & m & -> & M & A & _). pose proof (Z.pow_pos_nonneg 2 m ltac:(lia) M).
      replace (7 * (10 * k)) with (7 * k * 10) by lia. rewrite Z.div_mul by lia. lia.
Qed.
Lemma one_short_90 : one_short 90. Proof. exists 9, 3. cbn. lia. Qed.
Lemma not_one_short_odd n : n mod 10 <> 0 -> ~ one_short n.
Proof. intros H (k & m & -> & _). apply H. rewrite Z.mul_comm. now apply Z.mod_mul. Qed.

Lemma fifths_main n : 0 <= n < 2 ^ 50 ->
  int_times n lit_02 = n / 5 /\ int_times n lit_04 = 2 * n / 5 /\ int_times n lit_08 = 4 * n / 5.
Proof.
  intro N. pose proof (fifth_main 0 n ltac:(lia) N) as A. pose proof (fifth_main 1 n ltac:(lia) N) as B. pose proof (fifth_main 2 n ltac:(lia) N) as C.
  change (2 ^ 0) with 1 in A. change (2 ^ 1) with 2 in B. change (2 ^ 2) with 4 in C. rewrite Z.mul_1_r in A.
  rewrite (Z.mul_comm n) in B, C. split; [exact A|]. split; [exact B|exact C].
Qed.
Lemma one_short_dec n : 0 <= n -> one_short n \/ ~ one_short n.
Proof.
  intro N. destruct (Z.eq_dec (n mod 10) 0) as [E|E]; [|right; now apply not_one_short_odd].
  apply Z.mod_divide in E; [|lia]. destruct E as [k ->].
  destruct (Z_le_gt_dec k 1) as [K|K].
  - right. intros (k' & m & E & M & A & _). pose proof (Z.pow_pos_nonneg 2 m ltac:(lia) M). lia.
  - set (m := Z.log2 k). destruct (Z.log2_spec k ltac:(lia)) as [L U]. fold m in L, U. assert (M0 : 0 <= m) by apply Z.log2_nonneg.
    destruct (Z_lt_ge_dec (2 ^ m) k) as [A|A]; [destruct (Z_lt_ge_dec (7 * k) (2 ^ (m + 3))) as [B|B]|].
    + left. exists k, m. repeat split; lia.
    + right. intros (k' & m' & E & M' & A' & B'). assert (k' = k) by lia. subst k'.
      assert (m' <= m) by (apply Z.log2_le_pow2; lia). pose proof (Z.pow_le_mono_r 2 (m' + 3) (m + 3) ltac:(lia) ltac:(lia)). lia.
    + right. intros (k' & m' & E & M' & A' & B'). assert (k' = k) by lia. subst k'. assert (k = 2 ^ m) by lia.
      assert (m' < m) by (apply (Z.pow_lt_mono_r_iff 2); lia). pose proof (Z.pow_le_mono_r 2 (m' + 3) (m + 2) ltac:(lia) ltac:(lia)).
      assert (2 ^ (m + 2) = 4 * 2 ^ m) by (rewrite Z.pow_add_r by lia; lia). lia.
Qed.
Lemma seven_iff n : 0 <= n < 2 ^ 50 ->
  (int_times n lit_07 = 7 * n / 10 <-> ~ one_short n) /\ (int_times n lit_07 = 7 * n / 10 - 1 <-> one_short n).
Proof.
  intro N. destruct (seven_main n N) as [A B]. destruct (one_short_dec n ltac:(lia)) as [O1|O1].
  - pose proof (A O1) as E. split; split; intro H; try tauto; lia.
  - pose proof (B O1) as E. split; split; intro H; try tauto; lia.
Qed.
Lemma seven_tenths_bad : exists n : Z, 0 <= n < 2 ^ 50 /\ int_times n lit_07 <> 7 * n / 10 /\ 7 * n mod 10 = 0.
Proof. exists 90. split; [lia|]. split; [|reflexivity]. destruct (seven_main 90 ltac:(lia)) as [A _]. rewrite (A one_short_90). lia. Qed.
