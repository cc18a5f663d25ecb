(** The model of [int(n * ratio)] computes IEEE 754 doubles as Flocq rounds them. *)
From Coq Require Import ZArith Znumtheory Lia Bool Reals Lra.
From Flocq Require Import Core.
From Verif Require Import Ratio_model Ratio_spec Ratio_main.
Open Scope Z_scope.

Lemma pow_bpow b : 0 <= b -> bpow radix2 b = IZR (2 ^ b).
Proof. intro H. rewrite <- (IZR_Zpower radix2) by lia. reflexivity. Qed.

Lemma nearest_ieee p b : 0 <= b -> ZnearestE (IZR p * bpow radix2 (- b))%R = nearest_even p b.
Proof.
  intro B. assert (P : 0 < 2 ^ b) by (apply Z.pow_pos_nonneg; lia).
  assert (PR : (0 < IZR (2 ^ b))%R) by now apply IZR_lt.
  set (x := (IZR p * bpow radix2 (- b))%R).
  assert (EX : x = (IZR p / IZR (2 ^ b))%R) by (unfold x; rewrite bpow_opp, pow_bpow by lia; reflexivity).
  assert (F : Zfloor x = p / 2 ^ b) by (rewrite EX; apply Zfloor_div; lia).
  pose proof (Z.div_mod p (2 ^ b) ltac:(lia)) as D. pose proof (Z.mod_pos_bound p (2 ^ b) P) as M.
  unfold nearest_even. rewrite <- F in *. set (q := Zfloor x) in *. set (r := p mod 2 ^ b) in *.
  assert (XR : x = (IZR q + IZR r / IZR (2 ^ b))%R) by (rewrite EX, D, plus_IZR, mult_IZR; field; lra).
  assert (C : r <> 0 -> Zceil x = q + 1).
  { intro R0. apply Zceil_imp. replace (q + 1 - 1) with q by lia. rewrite XR, plus_IZR. split.
    - assert (0 < IZR r / IZR (2 ^ b))%R; [|lra]. apply Rdiv_lt_0_compat; auto. apply IZR_lt. lia.
    - assert (IZR r / IZR (2 ^ b) <= 1)%R; [|lra]. apply (Rmult_le_reg_r (IZR (2 ^ b))); auto. unfold Rdiv. rewrite Rmult_assoc, Rinv_l by lra.
      rewrite Rmult_1_r, Rmult_1_l. apply IZR_le. lia. }
  unfold Znearest. fold q.
  assert (DX : (x - IZR q = IZR r / IZR (2 ^ b))%R) by (rewrite XR; ring).
  rewrite DX. set (w := 2 ^ b) in *.
  assert (SC : forall y, (IZR r / IZR w < y <-> IZR r < y * IZR w)%R).
  { intro y. split; intro H.
    - apply (Rmult_lt_compat_r (IZR w)) in H; auto. unfold Rdiv in H. rewrite Rmult_assoc, Rinv_l, Rmult_1_r in H by lra. exact H.
    - apply (Rmult_lt_reg_r (IZR w)); auto. unfold Rdiv. rewrite Rmult_assoc, Rinv_l, Rmult_1_r by lra. exact H. }
  destruct (Z.ltb_spec (2 * r) w) as [L|L]; cbn [orb].
  - rewrite Rcompare_Lt; [reflexivity|]. apply SC. apply IZR_lt in L. rewrite mult_IZR in L. lra.
  - destruct (Z.eqb_spec (2 * r) w) as [E|E]; cbn [andb].
    + rewrite Rcompare_Eq.
      * destruct (Z.even q); cbn [negb]; [reflexivity|]. apply C. lia.
      * rewrite <- E, mult_IZR. field. apply not_0_IZR. lia.
    + rewrite Rcompare_Gt; [apply C; lia|]. apply Rnot_le_lt. intro H. assert (G : 2 * r > w) by lia.
      apply Z.gt_lt, IZR_lt in G. rewrite mult_IZR in G.
      apply (Rmult_le_compat_r (IZR w)) in H; [|lra]. unfold Rdiv in H. rewrite Rmult_assoc, Rinv_l, Rmult_1_r in H by lra. lra.
Qed.

Lemma mag_int p e : 0 < p -> mag_val radix2 _ (mag radix2 (IZR p * bpow radix2 e)) = Z.log2 p + 1 + e.
Proof.
  intro P. apply mag_unique_pos. destruct (Z.log2_spec p P) as [L U]. rewrite Z.pow_succ_r in U by apply Z.log2_nonneg.
  pose proof (Z.log2_nonneg p) as N.
  replace (Z.log2 p + 1 + e - 1) with (Z.log2 p + e) by lia. rewrite !bpow_plus, (pow_bpow (Z.log2 p)) by lia.
  pose proof (bpow_gt_0 radix2 e) as G. apply IZR_le in L. apply IZR_lt in U. rewrite mult_IZR in U. change (bpow radix2 1) with 2%R. nra.
Qed.
Lemma double_ieee p e : 0 < p -> -1074 <= e ->
  double (IZR p * bpow radix2 e) = (IZR (fst (to_double p e)) * bpow radix2 (snd (to_double p e)))%R.
Proof.
  intros P E. unfold double, to_double. set (b := Z.log2 p - 52). destruct (Z.leb_spec b 0) as [H|H]; cbn [fst snd].
  - apply round_generic; [apply valid_rnd_N|]. apply generic_format_FLT. exists (Float radix2 p e); cbn [Fnum Fexp]; [reflexivity| |exact E].
    apply Z.abs_lt. assert (p < 2 ^ 53); [|change (radix2 ^ 53) with (2 ^ 53); lia]. apply Z.log2_lt_pow2; lia.
  - unfold round, F2R, scaled_mantissa, cexp. rewrite mag_int by exact P. cbn [Fnum Fexp]. unfold FLT_exp.
    replace (Z.max (Z.log2 p + 1 + e - 53) (-1074)) with (e + b) by lia. f_equal. f_equal. rewrite Rmult_assoc, <- bpow_plus.
    replace (e + - (e + b)) with (- b) by lia. apply nearest_ieee. lia.
Qed.
Lemma nearest_nonneg p b : 0 <= p -> 0 <= b -> 0 <= nearest_even p b.
Proof. intros P B. apply nearest_ge; lia. Qed.
Lemma to_double_nonneg p e : 0 < p -> 0 <= fst (to_double p e).
Proof. intro P. unfold to_double. destruct (Z.leb_spec (Z.log2 p - 52) 0); cbn [fst]; [lia|]. apply nearest_nonneg; lia. Qed.
Lemma int_ieee m e : 0 <= m -> Ztrunc (IZR m * bpow radix2 e) = to_int (m, e).
Proof.
  intro M. assert (G : (0 <= IZR m * bpow radix2 e)%R) by (apply Rmult_le_pos; [now apply IZR_le|apply bpow_ge_0]).
  rewrite Ztrunc_floor by exact G. unfold to_int. destruct (Z.leb_spec 0 e) as [H|H].
  - rewrite pow_bpow by lia. rewrite <- mult_IZR. apply Zfloor_IZR.
  - replace e with (- (- e)) at 1 by lia. rewrite bpow_opp, pow_bpow by lia. apply Zfloor_div. apply Z.pow_nonzero; lia.
Qed.
Lemma double_small n : 0 <= n < 2 ^ 53 -> double (IZR n) = IZR n.
Proof.
  intro N. apply round_generic; [apply valid_rnd_N|]. apply generic_format_FLT. exists (Float radix2 n 0); cbn [Fnum Fexp].
  - unfold F2R. cbn. ring.
  - rewrite Z.abs_eq by lia. exact (proj2 N).
  - lia.
Qed.
Lemma ieee_main n m e r : 0 <= n < 2 ^ 53 -> 0 < m -> -1074 <= e -> double r = (IZR m * bpow radix2 e)%R ->
  int_times n (m, e) = ieee_int_times n r.
Proof.
  intros N M E R. unfold ieee_int_times. rewrite (double_small n N), R. destruct (Z.eq_dec n 0) as [->|NZ].
  - rewrite Rmult_0_l. unfold double. rewrite (round_0 _ _ ZnearestE). rewrite Ztrunc_IZR. cbn [int_times].
    unfold to_double. cbn. destruct e; reflexivity || (apply Z.div_0_l; intro X; apply Z.pow_eq_0_iff in X; lia).
  - rewrite <- Rmult_assoc, <- mult_IZR, double_ieee by nia. rewrite int_ieee by (apply to_double_nonneg; nia).
    unfold int_times. now destruct (to_double (n * m) e).
Qed.

(** * The literals *)
Lemma literal_main p q m c : 0 < p -> 0 < q -> -1000 <= c <= 0 -> 2 ^ 52 * q <= p * 2 ^ (- c) < 2 ^ 53 * q -> Z.abs (2 * (m * q - p * 2 ^ (- c))) < q ->
  double (IZR p / IZR q) = (IZR m * bpow radix2 c)%R.
Proof.
  intros P Q C H N. assert (QR : (0 < IZR q)%R) by now apply IZR_lt.
  assert (MG : mag_val radix2 _ (mag radix2 (IZR p / IZR q)) = 53 + c).
  { apply mag_unique_pos. replace (53 + c - 1) with (52 + c) by lia. rewrite !bpow_plus. rewrite !(pow_bpow 52), !(pow_bpow 53) by lia.
    destruct H as [L U]. apply IZR_le in L. apply IZR_lt in U. rewrite !mult_IZR in L, U. rewrite <- (pow_bpow (- c)) in L, U by lia. rewrite bpow_opp in L, U.
    pose proof (bpow_gt_0 radix2 c) as G. set (B := bpow radix2 c) in *. set (S := IZR (2 ^ 52)) in *. set (T := IZR (2 ^ 53)) in *. clearbody B S T.
    split.
    - apply (Rmult_le_reg_r (IZR q)); auto. unfold Rdiv. rewrite (Rmult_assoc (IZR p)), Rinv_l, Rmult_1_r by lra.
      apply (Rmult_le_compat_r B) in L; [|lra]. rewrite (Rmult_assoc (IZR p)), Rinv_l, Rmult_1_r in L by lra. lra.
    - apply (Rmult_lt_reg_r (IZR q)); auto. unfold Rdiv. rewrite (Rmult_assoc (IZR p)), Rinv_l, Rmult_1_r by lra.
      apply (Rmult_lt_compat_r B) in U; [|lra]. rewrite (Rmult_assoc (IZR p)), Rinv_l, Rmult_1_r in U by lra. lra. }
  unfold double, round, F2R, scaled_mantissa, cexp. rewrite MG. cbn [Fnum Fexp]. unfold FLT_exp. replace (Z.max (53 + c - 53) (-1074)) with c by lia.
  f_equal. f_equal. apply Znearest_imp. rewrite pow_bpow by lia.
  assert (E : (IZR p / IZR q * IZR (2 ^ - c) - IZR m = IZR (p * 2 ^ (- c) - m * q) / IZR q)%R).
  { rewrite minus_IZR, !mult_IZR. field. lra. }
  rewrite E. unfold Rdiv. rewrite Rabs_mult, (Rabs_pos_eq (/ IZR q)) by (apply Rlt_le, Rinv_0_lt_compat; auto). rewrite <- abs_IZR.
  apply (Rmult_lt_reg_r (IZR q)); auto. rewrite Rmult_assoc, Rinv_l, Rmult_1_r by lra.
  assert (N' : 2 * Z.abs (p * 2 ^ (- c) - m * q) < q) by lia. apply IZR_lt in N'. rewrite mult_IZR in N'. lra.
Qed.
Lemma half_mantissa m e : (IZR (2 * m) * bpow radix2 (e - 1) = IZR m * bpow radix2 e)%R.
Proof. replace e with (1 + (e - 1)) at 2 by lia. rewrite mult_IZR, bpow_plus. change (bpow radix2 1) with 2%R. ring. Qed.
Lemma literals : double (2 / 10) = (IZR 3602879701896397 * bpow radix2 (-54))%R /\ double (4 / 10) = (IZR 3602879701896397 * bpow radix2 (-53))%R /\
  double (7 / 10) = (IZR 3152519739159347 * bpow radix2 (-52))%R /\ double (8 / 10) = (IZR 3602879701896397 * bpow radix2 (-52))%R.
Proof.
  split; [|split; [|split]]; rewrite <- half_mantissa.
  - apply (literal_main 2 10 _ (-55)); try lia; vm_compute; try split; try reflexivity; discriminate.
  - apply (literal_main 4 10 _ (-54)); try lia; vm_compute; try split; try reflexivity; discriminate.
  - apply (literal_main 7 10 _ (-53)); try lia; vm_compute; try split; try reflexivity; discriminate.
  - apply (literal_main 8 10 _ (-53)); try lia; vm_compute; try split; try reflexivity; discriminate.
Qed.
Lemma sizes_main :
  (forall (n m e : Z) (r : R),
    0 <= n < 2 ^ 53 -> 0 < m -> -1074 <= e -> double r = (IZR m * bpow radix2 e)%R ->
    int_times n (m, e) = ieee_int_times n r)
  /\ (forall n, 0 <= n < 2 ^ 53 ->
       int_times n lit_02 = ieee_int_times n (2 / 10) /\ int_times n lit_04 = ieee_int_times n (4 / 10)
       /\ int_times n lit_07 = ieee_int_times n (7 / 10) /\ int_times n lit_08 = ieee_int_times n (8 / 10)).
Proof.
  split; [exact ieee_main|]. intros n N. destruct literals as (A & B & C & D).
  split; [|split; [|split]]; apply ieee_main; auto; lia.
Qed.
