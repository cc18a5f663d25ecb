(** The experiments from the generated matrix to the recorded errors. *)
From Coq Require Import ZArith QArith Lia.
From Verif Require Import Prelude Tensor_model Matrix_model Matrix_spec Attention_model LinAlg_model Steps_model Steps_ratio.
Set Warnings "-notation-overridden".
From mathcomp Require Import all_ssreflect all_algebra.
From Verif Require Import LinAlg_spec LinAlg_bridge Upd_spec Exact_spec Steps_spec Steps_err Steps_main Steps_block.
Set Implicit Arguments.
Unset Strict Implicit.
Unset Printing Implicit Defensive.
Import Order.TTheory GRing.Theory Num.Theory.
Local Open Scope ring_scope.

Section Full.
Variable R : realFieldType.
Variables (qr : mat R -> res (mat R * mat R)) (svd : mat R -> res (mat R * list R * mat R))
          (rsvd : mat R -> nat -> res (mat R * list R * mat R)) (argsort : list R -> list nat)
          (exceeds_eps : R -> bool) (sqrt : R -> R) (eps : R).
Hypotheses (QR : qr_ok qr) (TR : truncated_ok rsvd) (LL : lossless rsvd) (SQ : sqrt_ok sqrt) (EP : 0 < eps).
Variables (draw : nat -> nat -> nat -> mat R) (drawv : nat -> list R).
Hypotheses (D1 : forall k i j, shape i j (draw k i j)) (D2 : forall k, size (drawv k) = k).

Lemma leading_rank axis n q (c : mat R) : (q <= n)%N -> (\rank (leading axis n q c) <= \rank (mx n n c))%N.
Proof.
  move=> qn. case: axis; rewrite /leading.
  - have -> : mx q n c = (\matrix_(i < q, k < n) (i == k :> nat)%:R) *m mx n n c.
      apply/matrixP => i j. rewrite !mxE (bigD1 (widen_ord qn i)) //= !mxE eqxx mul1r big1 ?addr0 // => k Hk.
      rewrite !mxE. case: eqP => [E|_]; last by rewrite mul0r. by move: Hk; rewrite -val_eqE /= E eqxx.
    exact: mxrankM_maxr.
  - have -> : mx n q c = mx n n c *m (\matrix_(k < n, j < q) (j == k :> nat)%:R).
      apply/matrixP => i j. rewrite !mxE (bigD1 (widen_ord qn j)) //= !mxE eqxx mulr1 big1 ?addr0 // => k Hk.
      rewrite !mxE. case: eqP => [E|_]; last by rewrite mulr0. by move: Hk; rewrite -val_eqE /= E eqxx.
    exact: mxrankM_maxl.
Qed.
Lemma exact_is_part k q z : exact_part k q z -> part_of k q z.
Proof.
  rewrite /exact_part /part_of /floor_of => E. rewrite E. split; first by apply: Qle_refl.
  rewrite -Zlt_Qlt. lia.
Qed.
Lemma fraction_le k q z : fraction q -> part_of k q z -> (z <= k)%N.
Proof.
  move=> [_ H] [F _]. apply/ssrnat.leP/Nat2Z.inj_le. rewrite Zle_Qle. apply: Qle_trans F _.
  apply: (Qle_trans _ (Qmult (inject_Z (Z.of_nat k)) (inject_Z 1))); last by rewrite Qmult_1_r; exact: Qle_refl.
  rewrite !(Qmult_comm (inject_Z (Z.of_nat k))). apply: Qmult_le_compat_r => //. rewrite -[Qmake 0 1]/(inject_Z 0) -Zle_Qle. lia.
Qed.

Notation run_vec f := (get_dynamics_vec 0 +%R *%R (fun x y => x - y) (fun x y => x / y) (fun k => k%:R) qr sqrt eps f draw drawv).
Notation run_mtx f := (get_dynamics_mtx 0 +%R *%R (fun x y => x - y) (fun x y => x / y) (fun k => k%:R) qr sqrt eps f draw drawv).
Notation gen := (generate_matrix 0 +%R *%R qr draw drawv).
Notation refit := (get_svd_triple rsvd).
Notation incr := (get_incremental_svd_triple 0 1 +%R *%R (fun x y => x - y) qr rsvd exceeds_eps).
Notation incr_block := (get_incremental_svd_triple_block 0 +%R *%R svd rsvd argsort).

Lemma full_refit axis n rank rf rn i0 w : (rank <= n)%N -> fraction rf -> nonneg rn -> part_of n rf i0 -> part_of (n - i0) rn w -> (0 < i0)%N ->
  match run_vec refit n rank rf rn axis with
  | Err e => w = 0%N /\ e = ZeroDivisionError \/ (exists x, qr x = Err e) \/ exists x r, rsvd x r = Err e
  | Ok recs => forall x, List.In x recs -> x.1 = Some 0
  end.
Proof.
  move=> Hr F0 F1 I0 W0 HP. rewrite /get_dynamics_vec.
  have Hr' : (rank <= minn n n)%N by rewrite minnn.
  have := generate_main QR D1 D2 Hr'. case: (gen n n rank) => [c|e]; last by right; left.
  move=> [Hc Rc]. cbv beta iota delta [bind].
  have := vec_baseline TR LL SQ EP axis rank Hc F0 F1 I0 W0 HP. case: (dynamics_vec _ _ _ _ _ _ _ _ _ _ _ _ _ _) => [recs|e]; last by case; [left|right; right].
  move=> [_ [K [_ _ H]]] x Ix. have [k Ek] := List.In_nth_error _ _ Ix. have [_ [e -> [_ _ He]]] := H _ _ Ek. congr Some. apply: He => //.
  apply: leq_trans (leading_rank _ _ _) Rc. exact: geq_minl.
Qed.

Lemma full_incremental axis n rank rf rn i0 w c : (rank <= n)%N -> fraction rf -> nonneg rn -> part_of n rf i0 -> part_of (n - i0) rn w ->
  (0 < i0)%N -> gen n n rank = Ok c -> \rank (leading axis n i0 c) = rank ->
  match run_vec (incr axis) n rank rf rn axis with
  | Err e => w = 0%N /\ e = ZeroDivisionError \/ (exists x, qr x = Err e) \/ exists x r, rsvd x r = Err e
  | Ok recs => forall x, List.In x recs -> x.1 = Some 0
  end.
Proof.
  move=> Hr F0 F1 I0 W0 HP E G. rewrite /get_dynamics_vec E.
  have Hr' : (rank <= minn n n)%N by rewrite minnn.
  have := generate_main QR D1 D2 Hr'. rewrite E => -[Hc Rc]. cbv beta iota delta [bind].
  have := vec_incremental exceeds_eps QR TR LL SQ EP axis rank Hc F0 F1 I0 W0 HP. case: (dynamics_vec _ _ _ _ _ _ _ _ _ _ _ _ _ _) => [recs|e] //.
  have M : minn rank i0 = rank.
    apply/minn_idPl. rewrite -G /leading. by case: (axis); [exact: rank_leq_row|exact: rank_leq_col].
  rewrite M. move=> [_ [K [_ _ H]]] x Ix. have [k Ek] := List.In_nth_error _ _ Ix. have [_ [e -> [_ _ He]]] := H _ _ Ek. congr Some. apply: He => //.
  apply: leq_trans (leading_rank _ _ _) Rc. exact: geq_minl.
Qed.

Lemma full_block n rank rf rn i0 w s : (s <= n)%N -> fraction rf -> nonneg rn -> part_of n rf i0 -> exact_part (n - i0) rn w -> (0 < i0)%N -> (0 < w)%N ->
  at_least_announced rank rn -> small_rank rank rn = Ok s ->
  match run_mtx refit n rank rf rn with
  | Err e => (exists x, qr x = Err e) \/ exists x r, rsvd x r = Err e
  | Ok recs => forall x, List.In x recs -> x.1 = Some 0
  end.
Proof.
  move=> Hr F0 F1 I0 W0 HP Hw HA HS. rewrite /get_dynamics_mtx HS. cbv beta iota delta [bind].
  have Hr' : (s <= minn n n)%N by rewrite minnn.
  have := generate_main QR D1 D2 Hr'. case: (gen n n s) => [c|e]; last by left.
  move=> [Hc Rc].
  have := block_baseline_main TR LL SQ EP rank Hc F0 F1 I0 (exact_is_part W0) HP.
  case: (dynamics_mtx _ _ _ _ _ _ _ _ _ _ _ _ _) => [recs|e]; last by case=> [[W _]|H]; [rewrite W in Hw|right].
  move=> [_ [K [/andP [HK _] SR H]]] x Ix. have [k Ek] := List.In_nth_error _ _ Ix.
  have [_ [e -> [_ He]]] := H _ _ Ek. congr Some. apply/He.
  apply: (budget_main (fraction_le F0 I0) Hw Hc F1 W0 HA HS Rc).
  have L : (k < K.+1)%N by rewrite -SR -length_size; apply/ssrnat.ltP; apply/List.nth_error_Some; rewrite Ek.
  apply: leq_trans HK. by rewrite leq_mul2r -ltnS L orbT.
Qed.

Hypotheses (SV : svd_ok svd) (NS : nonneg_svd svd) (AS : argsort_ok (fun x y => x <= y) argsort) (NR : nonneg_rsvd rsvd).
Lemma full_block_incremental n rank rf rn i0 w s : (s <= n)%N -> fraction rf -> nonneg rn -> part_of n rf i0 -> exact_part (n - i0) rn w -> (0 < w)%N ->
  at_least_announced rank rn -> small_rank rank rn = Ok s -> (0 < i0)%N -> (rank <= i0)%N ->
  match run_mtx incr_block n rank rf rn with
  | Err e => (exists x, qr x = Err e) \/ (exists x, svd x = Err e) \/ exists x r, rsvd x r = Err e
  | Ok recs => forall x, List.In x recs -> x.1 = Some 0
  end.
Proof.
  move=> Hr F0 F1 I0 W0 Hw HA HS HP HR. rewrite /get_dynamics_mtx HS. cbv beta iota delta [bind].
  have Hr' : (s <= minn n n)%N by rewrite minnn.
  have := generate_main QR D1 D2 Hr'. case: (gen n n s) => [c|e]; last by left.
  move=> [Hc Rc].
  have := block_incremental_main SV NS AS TR LL NR SQ EP rank Hc F0 F1 I0 (exact_is_part W0) HP.
  case: (dynamics_mtx _ _ _ _ _ _ _ _ _ _ _ _ _) => [recs|e]; last by case=> [[W _]|H]; [rewrite W in Hw|right].
  move=> [_ [K [/andP [HK _] SR H]]] x Ix. have [k Ek] := List.In_nth_error _ _ Ix.
  have [_ [e -> [_ He]]] := H _ _ Ek. congr Some. apply/He. rewrite (minn_idPl HR).
  apply: (budget_main (fraction_le F0 I0) Hw Hc F1 W0 HA HS Rc).
  have L : (k < K.+1)%N by rewrite -SR -length_size; apply/ssrnat.ltP; apply/List.nth_error_Some; rewrite Ek.
  apply: leq_trans HK. by rewrite leq_mul2r -ltnS L orbT.
Qed.
End Full.
