(** Proofs about sizes computed from ratios. *)
From Coq Require Import ZArith Znumtheory Zpow_facts Lia Bool Reals Lra.
From Flocq Require Import Core.
From Verif Require Import Ratio_model Ratio_spec.
Open Scope Z_scope.

(** * Rounding of integers *)
Lemma nearest_spec p b : 0 <= b -> let q := nearest_even p b in
  - 2 ^ b <= 2 * (q * 2 ^ b - p) <= 2 ^ b /\ (Z.abs (2 * (q * 2 ^ b - p)) = 2 ^ b -> b <> 0 -> Z.even q = true).
Proof.
  intros B. cbn zeta. unfold nearest_even. assert (P : 0 < 2 ^ b) by (apply Z.pow_pos_nonneg; lia).
  pose proof (Z.div_mod p (2 ^ b) ltac:(lia)) as D. pose proof (Z.mod_pos_bound p (2 ^ b) P) as M.
  set (q := p / 2 ^ b) in *. set (r := p mod 2 ^ b) in *. set (w := 2 ^ b) in *.
  destruct (Z.ltb_spec (2 * r) w) as [L|L]; cbn [orb].
  - split; nia.
  - destruct (Z.eqb_spec (2 * r) w) as [E|E]; cbn [andb].
    + destruct (Z.even q) eqn:EV; [split; [nia|auto]|]. split; [nia|]. intros _ _. rewrite Z.even_add, EV. reflexivity.
    + split; nia.
Qed.
Lemma nearest_ge p b k : 0 <= b -> k * 2 ^ b <= p -> k <= nearest_even p b.
Proof.
  intros B H. destruct (nearest_spec p b B) as [[L U] _]. assert (P : 0 < 2 ^ b) by (apply Z.pow_pos_nonneg; lia). nia.
Qed.
Lemma nearest_lt p b k : 0 <= b -> 2 * p + 2 ^ b < 2 * k * 2 ^ b -> nearest_even p b < k.
Proof.
  intros B H. destruct (nearest_spec p b B) as [[L U] _]. assert (P : 0 < 2 ^ b) by (apply Z.pow_pos_nonneg; lia). nia.
Qed.

(** [int_times] when the product is [k] plus something safely below 1. *)
Lemma int_times_floor n m e k : 0 < n -> 0 < m -> e < 0 ->
  let p := n * m in let b := Z.log2 p - 52 in
  b < - e -> k * 2 ^ (- e) <= p -> 2 * p + 2 ^ Z.max b 0 < 2 * (k + 1) * 2 ^ (- e) -> int_times n (m, e) = k.
Proof.
  cbn zeta. intros N M E B L U. unfold int_times, to_double. set (p := n * m) in *. set (b := Z.log2 p - 52) in *.
  destruct (Z.leb_spec b 0) as [H|H].
  - unfold to_int. destruct (Z.leb_spec 0 e) as [|_]; [lia|]. assert (P : 0 < 2 ^ (- e)) by (apply Z.pow_pos_nonneg; lia).
    rewrite Z.max_r in U by lia. symmetry. apply (Z.div_unique p (2 ^ (- e)) k (p - k * 2 ^ (- e))); [left|]; nia.
  - rewrite Z.max_l in U by lia. unfold to_int. destruct (Z.leb_spec 0 (e + b)) as [|_]; [lia|].
    assert (EQ : 2 ^ (- e) = 2 ^ (- (e + b)) * 2 ^ b) by (rewrite <- Z.pow_add_r by lia; f_equal; lia).
    assert (P : 0 < 2 ^ (- (e + b))) by (apply Z.pow_pos_nonneg; lia).
    assert (G : k * 2 ^ (- (e + b)) <= nearest_even p b) by (apply nearest_ge; [lia|]; rewrite EQ in L; lia).
    assert (LT : nearest_even p b < (k + 1) * 2 ^ (- (e + b))) by (apply nearest_lt; [lia|]; rewrite EQ in U; lia).
    symmetry. apply (Z.div_unique _ _ k (nearest_even p b - k * 2 ^ (- (e + b)))); [left|]; nia.
Qed.
Lemma log2_product n m a c : 0 < n < 2 ^ a -> 0 < m < 2 ^ c -> 0 <= a -> 0 <= c -> Z.log2 (n * m) < a + c.
Proof.
  intros N M A C. apply Z.log2_lt_pow2; [nia|]. rewrite Z.pow_add_r by lia. nia.
Qed.

Lemma fifth_main d n : 0 <= d <= 2 -> 0 <= n < 2 ^ 50 -> int_times n (3602879701896397, d - 54) = n * 2 ^ d / 5.
Proof.
  intros D N. destruct (Z.eq_dec n 0) as [->|NZ]; [assert (d = 0 \/ d = 1 \/ d = 2) as [->|[->| ->]] by lia; reflexivity|].
  assert (LP := log2_product n 3602879701896397 50 52 ltac:(lia) ltac:(split; reflexivity) ltac:(lia) ltac:(lia)).
  assert (P0 : 0 < n * 3602879701896397) by nia.
  set (b := Z.max (Z.log2 (n * 3602879701896397) - 52) 0).
  assert (B : 2 ^ b <= 2 ^ 50) by (apply Z.pow_le_mono_r; lia).
  pose proof (Z.div_mod (n * 2 ^ d) 5 ltac:(lia)) as DM. pose proof (Z.mod_pos_bound (n * 2 ^ d) 5 ltac:(lia)) as MB.
  set (k := n * 2 ^ d / 5) in *.
  assert (E : 2 ^ (- (d - 54)) * 2 ^ d = 2 ^ 54) by (rewrite <- Z.pow_add_r by lia; f_equal; lia).
  assert (PD : 1 <= 2 ^ d <= 4) by (split; [apply (Z.pow_le_mono_r 2 0 d)|apply (Z.pow_le_mono_r 2 d 2)]; lia).
  assert (PE : 2 ^ 52 <= 2 ^ (- (d - 54))) by (apply Z.pow_le_mono_r; lia).
  apply int_times_floor; try lia; cbn zeta; fold b.
  - change (2 ^ 54) with 18014398509481984 in E. change (2 ^ 52) with 4503599627370496 in PE. set (w := 2 ^ (- (d - 54))) in *.
    change (2 ^ 50) with 1125899906842624 in *. nia.
  - change (2 ^ 54) with 18014398509481984 in E. change (2 ^ 52) with 4503599627370496 in PE. set (w := 2 ^ (- (d - 54))) in *.
    change (2 ^ 50) with 1125899906842624 in *. nia.
Qed.

Lemma seven_main n : 0 <= n < 2 ^ 50 ->
  (one_short n -> int_times n lit_07 = 7 * n / 10 - 1) /\ (~ one_short n -> int_times n lit_07 = 7 * n / 10).
Proof.
  intros N. destruct (Z.eq_dec n 0) as [->|NZ].
  { split; [|reflexivity]. intros (k & m & E & M & H & _). assert (0 < 2 ^ m) by (apply Z.pow_pos_nonneg; lia). lia. }
  unfold lit_07. assert (LP := log2_product n 3152519739159347 50 52 ltac:(lia) ltac:(split; reflexivity) ltac:(lia) ltac:(lia)).
  assert (P0 : 0 < n * 3152519739159347) by nia.
  pose proof (Z.div_mod n 10 ltac:(lia)) as DM. pose proof (Z.mod_pos_bound n 10 ltac:(lia)) as MB. set (k := n / 10) in *. set (r := n mod 10) in *.
  destruct (Z.eq_dec r 0) as [R0|R0].
  - (* a multiple of ten *)
    assert (EN : n = 10 * k) by lia. clearbody k r. clear DM. subst n. clear NZ.
    replace (7 * (10 * k) / 10) with (7 * k) by (replace (7 * (10 * k)) with (7 * k * 10) by ring; symmetry; apply Z.div_mul; lia).
    change (2 ^ 50) with 1125899906842624 in N. assert (K : 0 < k) by lia.
    destruct (Z.log2_spec (7 * k) ltac:(lia)) as [E1 E2]. set (e := Z.log2 (7 * k)) in *.
    assert (E0 : 2 <= e) by (apply Z.log2_le_pow2; lia).
    assert (E9 : e < 50) by (apply Z.log2_lt_pow2; [lia|]; change (2 ^ 50) with 1125899906842624; lia).
    rewrite Z.pow_succ_r in E2 by lia.
    assert (NP : 2 ^ e <> 7 * k).
    { intro X. assert (D7 : (7 | 2 ^ e)) by (exists k; lia).
      assert (RP : rel_prime 7 (2 ^ e)) by (apply rel_prime_Zpower_r; [lia|]; apply Zgcd_1_rel_prime; reflexivity).
      destruct RP as [_ _ RP]. specialize (RP 7 (Z.divide_refl 7) D7). apply Z.divide_1_r_nonneg in RP; lia. }
    assert (LG : Z.log2 (10 * k * 3152519739159347) = e + 52).
    { apply Z.log2_unique; [lia|]. rewrite Z.pow_succ_r, Z.pow_add_r by lia.
      change (2 ^ 52) with 4503599627370496. set (w := 2 ^ e) in *. lia. }
    unfold int_times, to_double. cbv beta iota zeta. rewrite LG. replace (e + 52 - 52) with e by lia.
    destruct (Z.leb_spec e 0) as [|_]; [lia|]. unfold to_int. destruct (Z.leb_spec 0 (-52 + e)) as [|_]; [lia|].
    replace (- (-52 + e)) with (52 - e) by lia.
    assert (W : 2 ^ e * 2 ^ (52 - e) = 4503599627370496) by (rewrite <- Z.pow_add_r by lia; replace (e + (52 - e)) with 52 by lia; reflexivity).
    assert (V : exists v, 2 ^ (52 - e) = 2 * v /\ 0 < v).
    { exists (2 ^ (51 - e)). split; [rewrite <- Z.pow_succ_r by lia; f_equal; lia|apply Z.pow_pos_nonneg; lia]. }
    destruct V as (v & EV & V0). rewrite EV in *.
    destruct (nearest_spec (10 * k * 3152519739159347) e ltac:(lia)) as [[L U] T].
    set (q := nearest_even _ _) in *. set (w := 2 ^ e) in *. clearbody q.
    assert (PP : 10 * k * 3152519739159347 = 7 * k * (2 * v) * w - 2 * k) by nia.
    rewrite PP in *.
    (* distance of q from 7 k 2v *)
    set (d := q - 7 * k * (2 * v)). assert (Q : q = 7 * k * (2 * v) + d) by (unfold d; lia). rewrite Q in L, U, T.
    replace (2 * ((7 * k * (2 * v) + d) * w - (7 * k * (2 * v) * w - 2 * k))) with (2 * d * w + 4 * k) in L, U, T by ring.
    assert (DD : d = 0 /\ 4 * k <= w \/ d = -1 /\ w <= 4 * k).
    { assert (d = 0 \/ d = -1) as [D|D] by nia; rewrite D in *; [left|right]; lia. }
    assert (OS : one_short (10 * k) <-> w < 4 * k).
    { split.
      - intros (k' & m & EK & M & H1 & H2). assert (k' = k) by lia. subst k'.
        assert (e <= m + 2). { apply Z.lt_succ_r. apply (Z.pow_lt_mono_r_iff 2); try lia. unfold w in E1. replace (Z.succ (m + 2)) with (m + 3) by lia. lia. }
        assert (w <= 2 ^ (m + 2)) by (apply Z.pow_le_mono_r; lia). rewrite Z.pow_add_r in H0 by lia. change (2 ^ 2) with 4 in H0. lia.
      - intro H. exists k, (e - 2). split; [reflexivity|]. split; [lia|].
        assert (X : w = 2 ^ (e - 2) * 4) by (unfold w; change 4 with (2 ^ 2); rewrite <- Z.pow_add_r by lia; f_equal; lia).
        split; [lia|]. replace (e - 2 + 3) with (Z.succ e) by lia. rewrite Z.pow_succ_r by lia. fold w. lia. }
    rewrite Q. split; intro H.
    + apply OS in H. assert (D : d = -1) by lia. rewrite D. symmetry. apply (Z.div_unique _ _ _ (2 * v - 1)); [left; lia|ring].
    + assert (D : d = 0).
      { destruct DD as [[D _]|[D H']]; [exact D|]. exfalso. assert (E4 : w = 4 * k) by (rewrite OS in H; lia).
        specialize (T ltac:(rewrite D; lia) ltac:(lia)). rewrite D in T.
        replace (7 * k * (2 * v) + -1) with (1 + 2 * (7 * k * v - 1)) in T by ring.
        rewrite Z.even_add_mul_2 in T. discriminate. }
      rewrite D. symmetry. apply (Z.div_unique _ _ _ 0); [left; lia|ring].
  - assert (NS : ~ one_short n) by (intros (k' & m & EN & _); lia).
    split; [contradiction|]. intros _.
    set (b := Z.max (Z.log2 (n * 3152519739159347) - 52) 0).
    assert (B : 2 ^ b <= 2 ^ 49) by (apply Z.pow_le_mono_r; lia).
    pose proof (Z.div_mod (7 * n) 10 ltac:(lia)) as DM'. pose proof (Z.mod_pos_bound (7 * n) 10 ltac:(lia)) as MB'.
    assert (R7 : (7 * n) mod 10 <> 0).
    { intro X. rewrite X in DM'. lia. }
    change (2 ^ 50) with 1125899906842624 in *.
    set (j := 7 * n / 10) in *. set (r' := (7 * n) mod 10) in *.
    change (2 ^ 49) with 562949953421312 in B.
    apply int_times_floor; cbn zeta; fold b; change (2 ^ (- (-52))) with 4503599627370496; try lia; clearbody j r' b; lia.
Qed.
