(** The experiments: final forms of the lemmas. *)
From Coq Require Import ZArith QArith Lia.
From Verif Require Import Prelude Tensor_model Matrix_model Matrix_spec Attention_model LinAlg_model Steps_model Steps_ratio.
From Verif Require Steps_budget.
Set Warnings "-notation-overridden".
From mathcomp Require Import all_ssreflect all_algebra.
From Verif Require Import LinAlg_spec LinAlg_bridge LinAlg_psi Upd_spec Exact_spec Exact_main Steps_spec Steps_err Steps_vec Steps_exp Steps_block.
Set Implicit Arguments.
Unset Strict Implicit.
Unset Printing Implicit Defensive.
Import Order.TTheory GRing.Theory Num.Theory.
Local Open Scope ring_scope.

Section Gen.
Variable R : realFieldType.
Variable qr : mat R -> res (mat R * mat R).
Hypothesis QR : qr_ok qr.

Lemma generate_main draw drawv m n rank : (forall k i j, shape i j (draw k i j)) -> (forall k, size (drawv k) = k) ->
  (rank <= minn m n)%N ->
  match generate_matrix (0 : R) +%R *%R qr draw drawv m n rank with
  | Err e => exists x, qr x = Err e
  | Ok c => shape m n c /\ (\rank (mx m n c) <= rank)%N
  end.
Proof.
  move=> HD HV. rewrite leq_min => /andP [Hm Hn]. rewrite /generate_matrix.
  case E1 : (qr (draw 0%N m rank)) => [[q1 r1]|e] /=; last by exists (draw 0%N m rank).
  case E2 : (qr (draw 1%N n rank)) => [[q2 r2]|e] /=; last by exists (draw 1%N n rank).
  have [D1 D2] := HD 0%N m rank. have [D3 D4] := HD 1%N n rank.
  have := QR E1. rewrite D1 D2 (minn_idPr Hm) /= => -[Q1 _ _ _].
  have := QR E2. rewrite D3 D4 (minn_idPr Hn) /= => -[Q2 _ _ _].
  have [Ht Et] := transpose_ok Q2.
  have [c -> [Hc Ec]] := svd2mtx_ok Q1 (HV rank) Ht. split=> //. rewrite Ec. exact: rank_product.
Qed.
End Gen.

Section Err.
Variable R : realFieldType.
Variables (sqrt : R -> R) (eps : R).
Notation err := (sqrt_err_relative_mtx (0 : R) +%R *%R (fun x y => x - y) (fun x y => x / y) (fun k => k%:R) sqrt eps).

Lemma err_main m n a b : shape m n a -> shape m n b ->
  err a b = Ok (if (m * n == 0)%N then None else Some (relative_error sqrt eps (mx m n a) (mx m n b))).
Proof. exact: err_value. Qed.
End Err.

Section Vec.
Variable R : realFieldType.
Variables (qr : mat R -> res (mat R * mat R)) (rsvd : mat R -> nat -> res (mat R * list R * mat R)).
Variables (exceeds_eps : R -> bool) (sqrt : R -> R) (eps : R).
Hypothesis QR : qr_ok qr.
Hypothesis TR : truncated_ok rsvd.
Hypothesis LL : lossless rsvd.
Hypothesis SQ : sqrt_ok sqrt.
Hypothesis EP : 0 < eps.
Notation dynamics := (dynamics_vec (0 : R) +%R *%R (fun x y => x - y) (fun x y => x / y) (fun k => k%:R) sqrt eps).
Notation incr axis := (get_incremental_svd_triple (0 : R) 1 +%R *%R (fun x y => x - y) qr rsvd exceeds_eps axis).
Variables (axis : ax) (n : nat) (c : mat R) (rank : nat) (rf rn : Q) (i0 w : nat).
Hypothesis Hc : shape n n c.
Hypothesis H01 : fraction rf.
Hypothesis HN : nonneg rn.
Hypothesis F0 : part_of n rf i0.
Hypothesis F1 : part_of (n - i0) rn w.
Hypothesis I0 : (0 < i0)%N.

Lemma measures_of r good x q : says axis n r c good x q -> measures x (leading axis n q c) r good.
Proof.
  rewrite /says /measures. rewrite -(rank_leading axis n c q). rewrite (shape_leading axis n q). move=> [-> H]. split=> //.
Qed.

Lemma vec_baseline :
  match dynamics (get_svd_triple rsvd) axis c rank rf rn with
  | Err e => w = 0%N /\ e = ZeroDivisionError \/ exists x r, rsvd x r = Err e
  | Ok recs => (0 < w)%N /\ exists K, [/\ (n - i0 <= K * w < n - i0 + w)%N, size recs = K.+1
      & forall k x, List.nth_error recs k = Some x -> measures x (leading axis n (minn n (i0 + k * w)) c) rank True]
  end.
Proof.
  have := baseline_main TR LL SQ EP axis rank Hc H01 HN F0 F1 I0. case: (dynamics _ _ _ _ _ _) => // recs [W [K [K1 K2 K3]]].
  split=> //. exists K. split=> // k x E. apply: measures_of. exact: K3.
Qed.

Lemma vec_incremental :
  match dynamics (incr axis) axis c rank rf rn with
  | Err e => w = 0%N /\ e = ZeroDivisionError \/ (exists x, qr x = Err e) \/ exists x r, rsvd x r = Err e
  | Ok recs => (0 < w)%N /\ exists K, [/\ (n - i0 <= K * w < n - i0 + w)%N, size recs = K.+1
      & forall k x, List.nth_error recs k = Some x -> measures x (leading axis n (minn n (i0 + k * w)) c) (minn rank i0)
          (\rank (leading axis n i0 c) = minn rank i0)]
  end.
Proof.
  have := incremental_main exceeds_eps QR TR LL SQ EP axis rank Hc H01 HN F0 F1 I0.
  case: (dynamics _ _ _ _ _ _) => // recs [W [K [K1 K2 K3]]].
  split=> //. exists K. split=> // k x E. rewrite rank_leading. apply: measures_of. exact: K3.
Qed.
End Vec.

Section Block.
Variable R : realFieldType.
Lemma budget_main (n : nat) (c : mat R) rank (rn : Q) i0 w s : (i0 <= n)%N -> (0 < w)%N -> shape n n c -> nonneg rn ->
  exact_part (n - i0) rn w -> at_least_announced rank rn -> small_rank rank rn = Ok s -> (\rank (mx n n c) <= s)%N ->
  forall k, (k * w <= n - i0)%N ->
  (\rank (diagonal_part (block_start i0 w) k.+1 c (block_start i0 w k.+1)) <= rank)%N.
Proof.
  move=> Hi W Hc HN EP AL SR RK k Hk.
  have W' : lt 0 w by apply/ssrnat.ltP.
  have K' : le (Nat.mul k w) (n - i0) by apply/ssrnat.leP.
  have B := Steps_budget.budget (n - i0) w rank rn s k W' HN EP AL SR K'.
  have L : (block_start i0 w k.+1 <= n)%N by rewrite /block_start -(subnKC Hi) leq_add2l.
  apply: leq_trans (rank_blocks c W L) _.
  apply: (@leq_trans (k.+1 * s)%N); first by rewrite leq_mul2l RK orbT.
  by apply/ssrnat.leP; move: B; rewrite Nat.add_1_r.
Qed.
End Block.
