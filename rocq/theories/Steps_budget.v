(** The rank of the matrix generated for the blocks against the number of blocks. *)
From Coq Require Import ZArith QArith Qround Lia Lqa.
From Verif Require Import Prelude Matrix_spec Steps_model Steps_ratio.
Open Scope nat_scope.

Lemma budget d w rank rn s K : 0 < w -> nonneg rn -> exact_part d rn w -> at_least_announced rank rn ->
  small_rank rank rn = Ok s -> K * w <= d -> (K + 1) * s <= rank.
Proof.
  unfold nonneg, exact_part, at_least_announced, announced, small_rank. intros HW HN HE HA HS HK.
  destruct (Qeq_bool rn 0) eqn:E0; [discriminate|]. apply Qeq_bool_neq in E0.
  assert (P : (0 < rn)%Q) by (apply Qle_lteq in HN; destruct HN as [|HN]; [assumption|symmetry in HN; contradiction]).
  destruct (Qeq_bool (1 / rn + 1) 0) eqn:E1; [discriminate|].
  assert (HS' : s = Z.to_nat (Z.max (Qfloor (inject_Z (Z.of_nat rank) / (1 / rn + 1))) 1)) by congruence.
  clear HS. subst s. set (a := (1 / rn + 1)%Q) in *.
  assert (I : (0 < 1 / rn)%Q) by (unfold Qdiv; rewrite Qmult_1_l; apply Qinv_lt_0_compat; exact P).
  assert (A : (0 < a)%Q) by (unfold a; apply Qlt_trans with (1 / rn)%Q; [exact I|rewrite <- (Qplus_0_r (1 / rn)) at 1; apply Qplus_lt_r; reflexivity]).
  set (q := (inject_Z (Z.of_nat rank) / a)%Q) in *.
  assert (Q1 : (1 <= q)%Q) by (unfold q; apply Qle_shift_div_l; [exact A|lra]).
  assert (F1 : (1 <= Qfloor q)%Z) by (replace 1%Z with (Qfloor 1) by reflexivity; apply Qfloor_resp_le; exact Q1).
  rewrite Z.max_l by exact F1.
  assert (FL := Qfloor_le q).
  assert (B : (inject_Z (Z.of_nat (K + 1)) <= a)%Q).
  { unfold a. rewrite Nat2Z.inj_add, inject_Z_plus. apply Qplus_le_compat; [|apply Qle_refl].
    apply Qle_shift_div_l; [exact P|].
    assert (W : (0 < inject_Z (Z.of_nat w))%Q) by (unfold Qlt; cbn; lia).
    assert (D : (inject_Z (Z.of_nat K) * inject_Z (Z.of_nat w) <= inject_Z (Z.of_nat d))%Q).
    { rewrite <- inject_Z_mult, <- Nat2Z.inj_mul, <- Zle_Qle. lia. }
    apply Qmult_le_r with (z := inject_Z (Z.of_nat w)); [exact W|].
    setoid_replace (inject_Z (Z.of_nat K) * rn * inject_Z (Z.of_nat w))%Q with ((inject_Z (Z.of_nat K) * inject_Z (Z.of_nat w)) * rn)%Q by ring.
    rewrite Qmult_1_l, <- HE. rewrite HE at 1. apply Qmult_le_compat_r; [exact D|lra]. }
  assert (C : (inject_Z (Z.of_nat (K + 1)) * inject_Z (Qfloor q) <= inject_Z (Z.of_nat rank))%Q).
  { assert (E : (a * q == inject_Z (Z.of_nat rank))%Q) by (unfold q; field; intros Z0; rewrite Z0 in A; discriminate A). rewrite <- E.
    apply Qle_trans with (a * inject_Z (Qfloor q))%Q.
    - apply Qmult_le_compat_r; [exact B|]. replace 0%Q with (inject_Z 0) by reflexivity. rewrite <- Zle_Qle. lia.
    - rewrite Qmult_comm, (Qmult_comm a). apply Qmult_le_compat_r; [exact FL|lra]. }
  rewrite <- inject_Z_mult, <- Zle_Qle in C. apply Nat2Z.inj_le. rewrite Nat2Z.inj_mul, Z2Nat.id by lia. exact C.
Qed.
