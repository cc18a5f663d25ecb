(** Rational data for the concrete cases of the Steps theorems. *)
From Coq Require Import ZArith QArith Lia.
From Verif Require Import Prelude Tensor_model Matrix_model Matrix_spec Attention_model LinAlg_model Steps_model Steps_ratio.
Set Warnings "-notation-overridden".
From mathcomp Require Import all_ssreflect all_algebra.
From Verif Require Import LinAlg_spec LinAlg_bridge LinAlg_tables LinAlg_wit Hooi_wit Upd_spec Upd_wit Exact_spec Exact_wit Exact_main Steps_spec Steps_err Steps_psi.
From Verif Require Steps_num.
Set Implicit Arguments.
Unset Strict Implicit.
Unset Printing Implicit Defensive.
Import Order.TTheory GRing.Theory Num.Theory.
Local Open Scope ring_scope.

(** Tables of exact SVDs of the rank they are asked for. *)
Definition fit_lookup (tab : list (mat rat * (mat rat * list rat * mat rat))) (x : mat rat) (rank : nat)
  : res (mat rat * list rat * mat rat) :=
  match lookup tab x with
  | Ok t => if size t.1.2 == minn rank (minn (mr x) (mc x)) then Ok t else Err LinAlgError
  | Err e => Err e
  end.
Lemma fit_trunc tab x rank t : fit_lookup tab x rank = Ok t -> trunc_lookup tab x (minn rank (minn (mr x) (mc x))) = Ok t.
Proof. rewrite /fit_lookup /trunc_lookup. by case: (lookup tab x) => // t'; rewrite eq_sym; case: eqP. Qed.
Lemma fit_ok tab : all exact_entry tab -> truncated_ok (fit_lookup tab) /\ lossless (fit_lookup tab).
Proof.
  move=> A. split=> x rank t /fit_trunc E.
    have := trunc_table_ok (exact_trunc A) E. by rewrite -minnA minnn.
  move=> L. apply: (exact_table_ok A E). apply/low_rankE. rewrite leq_min. move/low_rankE: L => -> /=.
  by rewrite leq_min rank_leq_row rank_leq_col.
Qed.
Lemma fit_nonneg tab : all (fun e : mat rat * (mat rat * list rat * mat rat) => all (fun y => le_rat 0 y) e.2.1.2) tab -> nonneg_rsvd (fit_lookup tab).
Proof.
  move=> A x rank t. rewrite /fit_lookup. case E : (lookup tab x) => [t'|] //. case: eqP => // _ [<-].
  case: (lookup_in E) => y [I _]. exact: (all_in A I).
Qed.

(** sqrt_ok for the identity. *)
Lemma id_sqrt : sqrt_ok (fun x : rat => x).
Proof. by move=> x H. Qed.
Definition w_half : rat := frac 1 2.
Lemma w_half_pos : 0 < w_half.
Proof. by []. Qed.

Lemma mat_rank m n (x : mat rat) r (X Y : mat rat) : shape m r X -> shape r n Y -> shape m n x -> same_res (qdot X Y) x -> (\rank (mx m n x) <= r)%N.
Proof. move=> HX HY Hx /(same_dot HX HY Hx) <-. apply: leq_trans (mxrankM_maxl _ _) _. exact: rank_leq_col. Qed.

(** The matrix 25 u u^T with u = (3/5, 4/5), split into its two columns (or rows). *)
Definition v_c : mat rat := mkMat 2 2 [:: 9%:Q; 12%:Q; 12%:Q; 16%:Q].
Definition v_ut : mat rat := mkMat 1 2 [:: frac 3 5; frac 4 5].
Definition v_table : list (mat rat * (mat rat * list rat * mat rat)) :=
  [:: (mkMat 2 1 [:: 9%:Q; 12%:Q], (demo_u, [:: 15%:Q], one11));
     (mkMat 1 2 [:: 9%:Q; 12%:Q], (one11, [:: 15%:Q], v_ut));
     (v_c, (demo_u, [:: 25%:Q], v_ut));
     (mkMat 2 2 [:: 15%:Q; 20%:Q; 0; 0], (mkMat 2 1 [:: 1; 0], [:: 25%:Q], v_ut))].
Definition v_rsvd := fit_lookup v_table.
Definition v_qr : mat rat -> res (mat rat * mat rat) :=
  lookup [:: (mkMat 2 1 [:: 0; 0], (mkMat 2 1 [:: frac 4 5; frac (-3) 5], mkMat 1 1 [:: 0]));
            (mkMat 2 1 [:: 30%:Q; 40%:Q], (demo_u, mkMat 1 1 [:: 50%:Q]))].
Lemma v_contracts : [/\ qr_ok v_qr, truncated_ok v_rsvd & lossless v_rsvd].
Proof.
  have A : all exact_entry v_table by vm_compute.
  split; [by apply: qr_table_ok; vm_compute|exact: (proj1 (fit_ok A))|exact: (proj2 (fit_ok A))].
Qed.

(** The identity: its first column alone fixes the rank kept by the incremental update. *)
Definition i_c : mat rat := mkMat 2 2 [:: 1; 0; 0; 1].
Definition i_table : list (mat rat * (mat rat * list rat * mat rat)) :=
  [:: (mkMat 2 1 [:: 1; 0], (mkMat 2 1 [:: 1; 0], [:: 1], one11)); (i_c, (i_c, [:: 1; 1], i_c))].
Definition i_rsvd (x : mat rat) (rank : nat) : res (mat rat * list rat * mat rat) :=
  if same x i_c && (rank == 1%N) then Ok (mkMat 2 1 [:: 1; 0], [:: 1], mkMat 1 2 [:: 1; 0]) else fit_lookup i_table x rank.
Definition i_qr : mat rat -> res (mat rat * mat rat) :=
  lookup [:: (mkMat 2 1 [:: 0; 1], (mkMat 2 1 [:: 0; 1], one11))].
Lemma i_rank : \rank (mx 2 2 i_c) = 2%N.
Proof.
  have -> : mx 2 2 i_c = 1%:M by apply/matrixP => i j; rewrite !mxE; case: i => [[|[|i]]] // Hi; case: j => [[|[|j]]] // Hj.
  exact: mxrank1.
Qed.
Lemma i_contracts : [/\ qr_ok i_qr, truncated_ok i_rsvd & lossless i_rsvd].
Proof.
  have A : all exact_entry i_table by vm_compute.
  have [T L] := fit_ok A. have S2 : shape 2 2 i_c by [].
  have A1 : all trunc_entry [:: (i_c, (mkMat 2 1 [:: 1; 0], [:: 1], mkMat 1 2 [:: 1; 0]))] by vm_compute.
  split; first by apply: qr_table_ok; vm_compute.
  - move=> x rank t. rewrite /i_rsvd. case: ifP => [/andP [S /eqP ->] [<-]|_]; last exact: T.
    have [[H1 H2] _] := same_mx S2 S.
    have := @trunc_table_ok _ A1 x 1%N (mkMat 2 1 [:: 1; 0], [:: 1], mkMat 1 2 [:: 1; 0]). rewrite H1 H2.
    apply. by rewrite /trunc_lookup /lookup S.
  - move=> x rank t. rewrite /i_rsvd. case: ifP => [/andP [S /eqP ->] [<-]|_]; last exact: L.
    have [[H1 H2] EX] := same_mx S2 S. rewrite H1 H2 EX. by move/low_rankE; rewrite i_rank.
Qed.

(** A comparison of computed results. *)
Definition ok_is (T : eqType) (x : res T) (y : T) : bool := match x with Ok z => z == y | Err _ => false end.

(** Diagonal blocks 25 u u^T and 7, rank 2. *)
Definition b_c : mat rat := mkMat 3 3 [:: 9%:Q; 12%:Q; 1; 12%:Q; 16%:Q; 2%:Q; 3%:Q; 4%:Q; 7%:Q].
Definition b_table : list (mat rat * (mat rat * list rat * mat rat)) :=
  [:: (v_c, (k_u, [:: 25%:Q; 0], k_u));
     (mkMat 3 3 [:: 9%:Q; 12%:Q; 0; 12%:Q; 16%:Q; 0; 0; 0; 7%:Q],
      (mkMat 3 2 [:: frac 3 5; 0; frac 4 5; 0; 0; 1], [:: 25%:Q; 7%:Q], mkMat 2 3 [:: frac 3 5; frac 4 5; 0; 0; 0; 1]))].
Definition b_rsvd := fit_lookup b_table.
Lemma b_contracts : [/\ svd_ok demo_svd, nonneg_svd demo_svd, truncated_ok b_rsvd, lossless b_rsvd & nonneg_rsvd b_rsvd].
Proof.
  have A : all exact_entry b_table by vm_compute. have [K1 K2] := k_svd.
  split; [exact: K1|exact: K2|exact: (proj1 (fit_ok A))|exact: (proj2 (fit_ok A))|]. apply: fit_nonneg. by vm_compute.
Qed.

(** All ones, four blocks of size one. *)
Definition o_c : mat rat := mkMat 4 4 (nseq 16 1).
Lemma o_small : (\rank (mx 4 4 o_c) <= 1)%N.
Proof. by apply: (@mat_rank _ _ _ _ (mkMat 4 1 (nseq 4 1)) (mkMat 1 4 (nseq 4 1))); [by []|by []|by []|vm_compute]. Qed.
Lemma o_blocks : \rank (diagonal_part (block_start 1 1) 4 o_c 4) = 4%N.
Proof.
  have -> : diagonal_part (block_start 1 1) 4 o_c 4 = 1%:M.
    by apply/matrixP => i j; rewrite !mxE; case: i => [[|[|[|[|i]]]]] // Hi; case: j => [[|[|[|[|j]]]]] // Hj.
  exact: mxrank1.
Qed.

(** e1 e1^T, then e2 e2^T. *)
Definition p_a0 : mat rat := mkMat 2 2 [:: 1; 0; 0; 0].
Definition p_a1 : mat rat := mkMat 2 2 [:: 0; 0; 0; 1].
Definition p_rsvd := fit_lookup [:: (p_a0, (mkMat 2 1 [:: 1; 0], [:: 1], mkMat 1 2 [:: 1; 0]));
                                   (p_a1, (mkMat 2 1 [:: 0; 1], [:: 1], mkMat 1 2 [:: 0; 1]))].
Definition p_qr : mat rat -> res (mat rat * mat rat) :=
  lookup [:: (mkMat 2 1 [:: 0; 0], (mkMat 2 1 [:: 1; 0], mkMat 1 1 [:: 0]))].
Lemma p_contracts : [/\ qr_ok p_qr, truncated_ok p_rsvd & lossless p_rsvd].
Proof.
  have A : all exact_entry [:: (p_a0, (mkMat 2 1 [:: 1; 0], [:: 1], mkMat 1 2 [:: 1; 0])); (p_a1, (mkMat 2 1 [:: 0; 1], [:: 1], mkMat 1 2 [:: 0; 1]))] by vm_compute.
  split; [by apply: qr_table_ok; vm_compute|exact: (proj1 (fit_ok A))|exact: (proj2 (fit_ok A))].
Qed.
Lemma p_ranks : (\rank (mx 2 2 p_a0) <= 1)%N /\ (\rank (mx 2 2 p_a1) <= 1)%N.
Proof.
  split.
  - by apply: (@mat_rank _ _ _ _ (mkMat 2 1 [:: 1; 0]) (mkMat 1 2 [:: 1; 0])); [by []|by []|by []|vm_compute].
  - by apply: (@mat_rank _ _ _ _ (mkMat 2 1 [:: 0; 1]) (mkMat 1 2 [:: 0; 1])); [by []|by []|by []|vm_compute].
Qed.

(** 25 u u^T, then twice that. *)
Definition v_c2 : mat rat := mkMat 2 2 [:: 18%:Q; 24%:Q; 24%:Q; 32%:Q].
Lemma v_overlap : (\rank (mx 2 2 v_c) <= 1)%N /\ overlap (mx 2 2 v_c) [:: v_c2].
Proof.
  split; first by apply: (@mat_rank _ _ _ _ demo_u (mkMat 1 2 [:: 15%:Q; 20%:Q])); [by []|by []|by []|vm_compute].
  have Hc : shape 2 2 v_c by []. have H2 : shape 2 2 v_c2 by []. have [Ht Et] := transpose_ok Hc.
  split; last by []. rewrite -Et.
  have HM : shape 2 2 (mkMat 2 2 [:: 450%:Q; 600%:Q; 600%:Q; 800%:Q]) by [].
  have -> : mx 2 2 v_c2 *m mx 2 2 (transpose 0 v_c) = mx 2 2 (mkMat 2 2 [:: 450%:Q; 600%:Q; 600%:Q; 800%:Q]).
    by apply: (same_dot H2 Ht HM); vm_compute.
  have -> : mx 2 2 (mkMat 2 2 [:: 450%:Q; 600%:Q; 600%:Q; 800%:Q]) = 25%:Q *: mx 2 2 v_c2.
    apply: mx_eqP => i j. rewrite !mxE. by case: i => -[|[|]] //= ?; case: j => -[|[|]] //= ?; vm_compute.
  have N : 25%:Q != 0 :> rat by vm_compute.
  by have [-> _] := eqmx_scale (mx 2 2 v_c2) N.
Qed.

(** One Euler step of (0 1/2; -1/2 0) applied to both sides of diag(1, 0). *)
Definition e_skew : mat rat := mkMat 2 2 [:: 0; frac 1 2; frac (-1) 2; 0].
Definition e_zero : mat rat := mkMat 2 2 [:: 0; 0; 0; 0].
Definition e_next : mat rat := mkMat 2 2 [:: 1; frac (-1) 2; frac (-1) 2; frac 1 4].
Lemma e_transpose : (mx 2 2 e_skew)^T = - mx 2 2 e_skew.
Proof. apply: mx_eqP => i j. rewrite !mxE. by case: i => -[|[|]] //= ?; case: j => -[|[|]] //= ?; vm_compute. Qed.
Lemma e_mixed x : mixed 2 p_a0 e_zero x = mx 2 2 p_a0.
Proof. apply/matrixP => i j. rewrite !mxE. by case: i => -[|[|]] //= ?; case: j => -[|[|]] //= ?; rewrite mulr0 addr0. Qed.
Lemma e_norms x : normsq (mx 2 2 e_next) = frac 25 16 /\ normsq (mixed 2 p_a0 e_zero x) = 1.
Proof.
  rewrite e_mixed /normsq !big_ord_recl !big_ord0 !mxE. by split; apply/eqP; vm_compute.
Qed.

Lemma ok_isP (T : eqType) (x : res T) y : ok_is x y -> x = Ok y.
Proof. by case: x => //= z /eqP ->. Qed.

Notation w_dynamics := (dynamics_vec (0 : rat) +%R *%R (fun x y => x - y) (fun x y => x / y) (fun k => k%:R) (fun x => x) w_half).
Lemma i_ratios : fraction (1 # 2) /\ nonneg 1 /\ part_of 2 (1 # 2) 1 /\ part_of (2 - 1) 1 1.
Proof. by repeat split. Qed.
Lemma i_base : w_dynamics (get_svd_triple i_rsvd) Cols i_c 2 (1 # 2) 1 = Ok [:: (Some 0, (2, 1)%N); (Some 0, (2, 2)%N)].
Proof. by apply: ok_isP; vm_compute. Qed.
Lemma i_incr : w_dynamics (get_incremental_svd_triple (0 : rat) 1 +%R *%R (fun x y => x - y) i_qr i_rsvd (fun x => 0 < x) Cols) Cols i_c 2 (1 # 2) 1
  = Ok [:: (Some 0, (2, 1)%N); (Some (frac 1 4), (2, 2)%N)].
Proof. by apply: ok_isP; vm_compute. Qed.

Lemma incremental_stuck :
  exists (qr : mat rat -> res (mat rat * mat rat)) rsvd exceeds_eps sqrt eps c rank rf rn recs recs' e,
  [/\ qr_ok qr, truncated_ok rsvd, lossless rsvd, sqrt_ok sqrt & 0 < eps] /\
  [/\ shape 2 2 c, fraction rf, nonneg rn, part_of 2 rf 1 & part_of (2 - 1) rn 1] /\ (\rank (mx 2 2 c) <= rank)%N /\
  let run f := dynamics_vec 0 +%R *%R (fun x y => x - y) (fun x y => x / y) (fun k => k%:R) sqrt eps f Cols c rank rf rn in
  [/\ run (get_svd_triple rsvd) = Ok recs, List.nth_error recs 1 = Some (Some 0, (2, 2)%N),
      run (get_incremental_svd_triple 0 1 +%R *%R (fun x y => x - y) qr rsvd exceeds_eps Cols) = Ok recs',
      List.nth_error recs' 1 = Some (Some e, (2, 2)%N) & e <> 0].
Proof.
  exists i_qr, i_rsvd, (fun x => 0 < x), (fun x => x), w_half, i_c, 2%N, (1 # 2), (1 # 1), [:: (Some 0, (2, 1)%N); (Some 0, (2, 2)%N)],
    [:: (Some 0, (2, 1)%N); (Some (frac 1 4), (2, 2)%N)], (frac 1 4).
  have [C1 C2 C3] := i_contracts. have [R1 [R2 [R3 R4]]] := i_ratios.
  split; first by split; [exact: C1|exact: C2|exact: C3|exact: id_sqrt|exact: w_half_pos].
  split; first by split; [|exact: R1|exact: R2|exact: R3|exact: R4].
  split; first by rewrite i_rank. split; [exact: i_base|by []|exact: i_incr|by []|]. by move=> E; have : frac 1 4 != 0 by []; rewrite E.
Qed.

Lemma budget_broken :
  exists n (c : mat rat) rank rf rn i0 w s,
  [/\ shape n n c, fraction rf, nonneg rn, part_of n rf i0 & part_of (n - i0) rn w] /\
  [/\ (0 < i0)%N, (0 < w)%N, at_least_announced rank rn, small_rank rank rn = Ok s & (\rank (mx n n c) <= s)%N] /\
  exists k, (k * w <= n - i0)%N /\
  (rank < \rank (diagonal_part (block_start i0 w) k.+1 c (block_start i0 w k.+1)))%N.
Proof.
  exists 4%N, o_c, 3%N, (1 # 4), (1 # 2), 1%N, 1%N, 1%N. split; first by split=> //; split.
  split; first by split; [by []|by []|by []|by vm_compute|exact: o_small].
  exists 3%N. split; first by []. rewrite -[block_start 1 1 4]/4%N. by rewrite o_blocks.
Qed.

Lemma psi_broken :
  exists (qr : mat rat -> res (mat rat * mat rat)) rsvd sqrt eps a b e,
  [/\ qr_ok qr, truncated_ok rsvd, lossless rsvd, sqrt_ok sqrt & 0 < eps] /\
  [/\ shape 2 2 a, shape 2 2 b, (\rank (mx 2 2 a) <= 1)%N & (\rank (mx 2 2 b) <= 1)%N] /\
  get_psi_dynamics 0 +%R *%R (fun x y => x - y) (fun x y => x / y) (fun k => k%:R) qr rsvd sqrt eps [:: a; b] 1
  = Ok [:: Some 0; Some e] /\ e <> 0.
Proof.
  exists p_qr, p_rsvd, (fun x => x), w_half, p_a0, p_a1, (frac 1 3).
  have [C1 C2 C3] := p_contracts. have [R1 R2] := p_ranks.
  split; first by split; [exact: C1|exact: C2|exact: C3|exact: id_sqrt|exact: w_half_pos].
  split; first by split; [by []|by []|exact: R1|exact: R2].
  split; first by apply: ok_isP; vm_compute. by move=> E; have : frac 1 3 != 0 by []; rewrite E.
Qed.

Lemma norm_grows :
  exists (a1 a2 t1 t2 : mat rat),
  [/\ shape 2 2 a1, shape 2 2 a2, shape 2 2 t1 & shape 2 2 t2] /\
  [/\ (mx 2 2 t1)^T = - mx 2 2 t1, (mx 2 2 t2)^T = - mx 2 2 t2
    & forall exp t0, exists l a, [/\ get_dynamics_list 0 1 +%R *%R exp a1 a2 t1 t2 t0 1 2 2 = Ok l,
        List.nth_error l 1 = Some a & normsq (mixed 2 a1 a2 (exp (t0 + 1))) < normsq (mx 2 2 a)]].
Proof.
  exists p_a0, e_zero, e_skew, e_skew. split; first by split. split; [exact: e_transpose|exact: e_transpose|].
  move=> exp t0. have [] // := @Steps_num.dynamics_main _ exp 2 p_a0 e_zero e_skew e_skew t0 1 2.
  move=> [|b [|a [|c l]]] // E [_ N]. exists [:: b; a], a. split=> //. have [//|_ Ea _] := N 1%N a. have [E1 E2] := e_norms (exp (t0 + 1)).
  have -> : mx 2 2 a = mx 2 2 e_next; last by rewrite E1 E2; vm_compute.
  rewrite Ea e_mixed.
  apply: mx_eqP => i j. rewrite /euler /= mulmx1 !mxE !big_ord_recl !big_ord0 !mxE !big_ord_recl !big_ord0 !mxE.
  by case: i => -[|[|]] //= ?; case: j => -[|[|]] //= ?; vm_compute.
Qed.

(** Generated matrices: v_c from the draws (30, 40), and 25 q q^T with q = (3/5, 0, 4/5). *)
Definition g_zeros (i j : nat) : mat rat := mkMat i j (nseq (i * j) 0).
Definition g_draw (k i j : nat) : mat rat :=
  if (i == 2)%N && (j == 1)%N then mkMat i j [:: 30%:Q; 40%:Q]
  else if (i == 3)%N && (j == 1)%N then mkMat i j [:: 3%:Q; 0; 4%:Q] else g_zeros i j.
Definition g_drawv (k : nat) : list rat := nseq k 25%:Q.
Lemma g_shaped : (forall k i j, shape i j (g_draw k i j)) /\ (forall k, size (g_drawv k) = k).
Proof. split=> [k i j|k]; last by rewrite size_nseq. rewrite /g_draw. by case: ifP => _; last case: ifP. Qed.
Definition g_table : list (mat rat * (mat rat * list rat * mat rat)) :=
  [:: (mkMat 2 2 [:: 9%:Q; 0; 0; 0], (i_c, [:: 9%:Q; 0], i_c));
     (mkMat 3 3 [:: 9%:Q; 0; 0; 0; 0; 0; 0; 0; 16%:Q],
      (mkMat 3 2 [:: 0; 1; 0; 0; 1; 0], [:: 16%:Q; 9%:Q], mkMat 2 3 [:: 0; 0; 1; 1; 0; 0]))].
Definition g_rsvd := fit_lookup g_table.
Definition g_svd : mat rat -> res (mat rat * list rat * mat rat) := lookup [:: (mkMat 1 1 [:: 16%:Q], (one11, [:: 16%:Q], one11))].
Definition g_qr : mat rat -> res (mat rat * mat rat) :=
  lookup [:: (mkMat 3 1 [:: 3%:Q; 0; 4%:Q], (mkMat 3 1 [:: frac 3 5; 0; frac 4 5], mkMat 1 1 [:: 5%:Q]))].
Lemma g_contracts : [/\ qr_ok g_qr, truncated_ok g_rsvd, lossless g_rsvd & nonneg_rsvd g_rsvd] /\ svd_ok g_svd /\ nonneg_svd g_svd.
Proof.
  have A : all exact_entry g_table by vm_compute.
  split.
    split; [by apply: qr_table_ok; vm_compute|exact: (proj1 (fit_ok A))|exact: (proj2 (fit_ok A))|].
    apply: fit_nonneg. by vm_compute.
  split; first by apply: svd_table_ok; vm_compute.
  move=> x u s vt E. case: (lookup_in E) => y [I _]. by case: I => [[_ _ <- _]|[]].
Qed.
