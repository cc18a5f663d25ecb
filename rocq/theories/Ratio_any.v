(** Any ratio between 0 and 1. *)
From Coq Require Import ZArith Reals Lia Lra.
From Flocq Require Import Core.
From Verif Require Import Ratio_spec.
Open Scope R_scope.

Local Instance prec53 : Prec_gt_0 53. Proof. reflexivity. Qed.
Local Instance vexp : Valid_exp (FLT_exp (-1074) 53) := FLT_exp_valid (-1074) 53.
Local Instance mexp : Monotone_exp (FLT_exp (-1074) 53) := FLT_exp_monotone (-1074) 53.

Lemma double_le x y : x <= y -> double x <= double y.
Proof. intro H. apply round_le; auto with typeclass_instances. Qed.
Lemma double_int n : (0 <= n < 2 ^ 53)%Z -> double (IZR n) = IZR n.
Proof.
  intro H. apply round_generic; auto with typeclass_instances. apply generic_format_FLT.
  exists (Float radix2 n 0); unfold F2R; cbn [Fnum Fexp]; [cbn; ring|rewrite Z.abs_eq by lia; cbn; lia|lia].
Qed.
Lemma double_err x k : 0 <= x <= bpow radix2 k -> (-1021 <= k)%Z -> Rabs (double x - x) <= bpow radix2 (k - 53).
Proof.
  intros H K. eapply Rle_trans; [apply error_le_half_ulp; auto with typeclass_instances|].
  assert (U : ulp radix2 (FLT_exp (-1074) 53) x <= bpow radix2 (k + 1 - 53)).
  { eapply Rle_trans; [apply ulp_le with (y := bpow radix2 k)|]; auto with typeclass_instances.
    - rewrite !Rabs_pos_eq; try lra; apply bpow_ge_0.
    - rewrite ulp_bpow. apply bpow_le. unfold FLT_exp. lia. }
  replace (k + 1 - 53)%Z with (1 + (k - 53))%Z in U by lia. rewrite bpow_plus in U. change (bpow radix2 1) with 2 in U. lra.
Qed.
Lemma any_main n r : (0 <= n < 2 ^ 53)%Z -> 0 <= r <= 1 ->
  (0 <= ieee_int_times n r <= n)%Z /\
  (forall r', r <= r' <= 1 -> (ieee_int_times n r <= ieee_int_times n r')%Z) /\
  ((n < 2 ^ 50)%Z -> (Zfloor (IZR n * r) - 1 <= ieee_int_times n r <= Zfloor (IZR n * r) + 1)%Z).
Proof.
  intros N R. unfold ieee_int_times. rewrite (double_int n N).
  assert (D0 : double 0 = 0) by (apply (double_int 0); lia). assert (D1 : double 1 = 1) by (apply (double_int 1); lia).
  assert (A0 : 0 <= double r) by (apply Rle_trans with (double 0); [lra|apply double_le; lra]).
  assert (A1 : double r <= 1) by (apply Rle_trans with (double 1); [apply double_le; lra|lra]).
  assert (NN : 0 <= IZR n) by (apply IZR_le; lia).
  set (x := IZR n * double r). assert (X0 : 0 <= x) by (unfold x; nra). assert (X1 : x <= IZR n) by (unfold x; nra).
  assert (Y0 : 0 <= double x) by (apply Rle_trans with (double 0); [lra|apply double_le; lra]).
  assert (Y1 : double x <= IZR n) by (apply Rle_trans with (double (IZR n)); [apply double_le; lra|rewrite (double_int n N); lra]).
  split; [|split].
  - split; [apply Z.le_trans with (Ztrunc (IZR 0)); [rewrite Ztrunc_IZR; lia|apply Ztrunc_le; exact Y0]|]. apply Z.le_trans with (Ztrunc (IZR n)); [apply Ztrunc_le; exact Y1|rewrite Ztrunc_IZR; lia].
  - intros r' H. apply Ztrunc_le, double_le. unfold x. apply Rmult_le_compat_l; [exact NN|]. apply double_le. lra.
  - intro B. rewrite Ztrunc_floor by exact Y0.
    assert (BB : IZR n <= bpow radix2 50) by (change (bpow radix2 50) with (IZR (2 ^ 50)); apply IZR_le; lia).
    assert (E1 : Rabs (double r - r) <= bpow radix2 (-53)) by (apply (double_err r 0); [cbn; lra|lia]).
    assert (E2 : Rabs (double x - x) <= bpow radix2 (-3)) by (apply (double_err x 50); [lra|lia]).
    assert (E3 : Rabs (x - IZR n * r) <= bpow radix2 (-3)).
    { unfold x. replace (IZR n * double r - IZR n * r) with (IZR n * (double r - r)) by ring.
      rewrite Rabs_mult, (Rabs_pos_eq (IZR n)) by exact NN.
      apply Rle_trans with (bpow radix2 50 * bpow radix2 (-53)); [apply Rmult_le_compat; auto; apply Rabs_pos|].
      rewrite <- bpow_plus. apply Rle_refl. }
    assert (C : bpow radix2 (-3) = / 8) by (cbn; lra). rewrite C in *.
    apply Rabs_le_inv in E2. apply Rabs_le_inv in E3.
    split.
    + apply Zfloor_lub. rewrite minus_IZR. pose proof (Zfloor_lb (IZR n * r)). lra.
    + apply Z.lt_succ_r. apply lt_IZR. rewrite succ_IZR, plus_IZR. pose proof (Zfloor_ub (IZR n * r)). pose proof (Zfloor_lb (double x)). lra.
Qed.
