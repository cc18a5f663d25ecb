(** Cells of matrices by their indices, and where the entries of a step land. *)
From Coq Require Import ZArith Lia.
From Verif Require Import Prelude DataPrep_model DataPrep_spec Psi_model Psi_spec Tensor_model Matrix_model Attention_model LinAlg_model Num_model Num_sim.
Set Warnings "-notation-overridden".
From mathcomp Require Import all_ssreflect all_algebra.
From Verif Require Import LinAlg_spec LinAlg_bridge Upd_spec Exact_spec Num_spec Num_upd Num_book.
Set Implicit Arguments.
Unset Strict Implicit.
Unset Printing Implicit Defensive.
Import GRing.Theory.
Local Open Scope ring_scope.

Section Cells.
Variable R : comRingType.
Variable of_rel : Z -> R.

Lemma at_out m n (M : 'M[R]_(m, n)) i j : (m <= i)%N || (n <= j)%N -> at_mx M i j = 0.
Proof.
  rewrite /at_mx. case/orP => H; first by rewrite insubF // ltnNge H.
  case: insub => // a. by rewrite insubF // ltnNge H.
Qed.
Lemma at_fmx m n (h : nat -> nat -> R) i j : at_mx (fmx m n h) i j = if (i < m)%N && (j < n)%N then h i j else 0.
Proof.
  case: (ltnP i m) => Hi; last by rewrite at_out // Hi.
  case: (ltnP j n) => Hj; last by rewrite at_out // Hj orbT.
  by rewrite at_mxE mxE.
Qed.
Lemma fmx_at m n (M : 'M[R]_(m, n)) : fmx m n (at_mx M) = M.
Proof. by apply/matrixP => i j; rewrite mxE at_ord. Qed.
Lemma at_tr m n (M : 'M[R]_(m, n)) i j : at_mx M^T i j = at_mx M j i.
Proof.
  case: (ltnP i n) => Hi; last by rewrite !at_out // Hi // orbT.
  case: (ltnP j m) => Hj; last by rewrite !at_out // Hj // orbT.
  by rewrite !at_mxE mxE.
Qed.
Lemma at_row m n p (A : 'M[R]_(m, n)) (B : 'M_(m, p)) i j :
  at_mx (row_mx A B) i j = if (j < n)%N then at_mx A i j else at_mx B i (j - n).
Proof.
  case: (ltnP i m) => Hi; last by rewrite ![at_mx _ i _]at_out ?Hi // if_same.
  case: (ltnP j (n + p)) => Hj; last first.
    have Hn := leq_trans (leq_addr p n) Hj.
    by rewrite (at_out (row_mx _ _)) ?Hj ?orbT // ltnNge Hn /= at_out // leq_subRL // Hj orbT.
  rewrite at_mxE mxE. case: splitP => k /= E; subst j.
    rewrite ltn_ord at_mxE. by congr (A _ _); apply: val_inj.
  rewrite ltnNge leq_addr /= addKn at_mxE. by congr (B _ _); apply: val_inj.
Qed.
Lemma at_col m n p (A : 'M[R]_(m, n)) (B : 'M_(p, n)) i j :
  at_mx (col_mx A B) i j = if (i < m)%N then at_mx A i j else at_mx B (i - m) j.
Proof. by rewrite -[col_mx A B]trmxK tr_col_mx at_tr at_row !at_tr. Qed.
Lemma at_block m n p q (A : 'M[R]_(m, n)) (B : 'M_(p, q)) i j :
  at_mx (block_mx A 0 0 B) i j = at_mx A i j + if (i < m)%N || (j < n)%N then 0 else at_mx B (i - m) (j - n).
Proof.
  have Z0 a b i' j' : at_mx (0 : 'M[R]_(a, b)) i' j' = 0 by rewrite /at_mx; case: insub => // x; case: insub => // y; rewrite mxE.
  rewrite block_mxEh at_row !at_col.
  case: (ltnP i m) => Hi; case: (ltnP j n) => Hj /=; rewrite ?Z0 ?addr0 // (at_out A) ?Hi ?Hj ?orbT ?add0r //.
Qed.
Lemma at_ext m n (A B : 'M[R]_(m, n)) : (forall i j, at_mx A i j = at_mx B i j) -> A = B.
Proof. by move=> H; apply/matrixP => i j; rewrite -!at_ord H. Qed.

Definition cell_sum (es : seq (Z * Z * Z)) (i j : nat) : R :=
  \sum_(e <- es | Z.eqb e.1.1 (Z.of_nat i) && Z.eqb e.1.2 (Z.of_nat j)) of_rel e.2.
Definition landed (s : step_log) (i j : nat) : R :=
  \sum_(e <- da_entries (sl_da s) | Z.eqb (landing s e.1.1 e.1.2).1 (Z.of_nat i) && Z.eqb (landing s e.1.1 e.1.2).2 (Z.of_nat j)) of_rel e.2.

Lemma cell_nil es i j : List.Forall (fun e : Z * Z * Z => ~~ (Z.eqb e.1.1 (Z.of_nat i) && Z.eqb e.1.2 (Z.of_nat j))) es -> cell_sum es i j = 0.
Proof.
  elim=> [|e l H _ IH]; rewrite /cell_sum ?big_nil // big_cons (negbTE H). exact: IH.
Qed.

Lemma fold_cells es i j :
  List.fold_right +%R 0 (List.map (fun e : Z * Z * Z => of_rel e.2)
    (List.filter (fun e : Z * Z * Z => Z.eqb e.1.1 (Z.of_nat i) && Z.eqb e.1.2 (Z.of_nat j)) es)) = cell_sum es i j.
Proof.
  rewrite /cell_sum. elim: es => [|e l IH] /=; first by rewrite big_nil.
  rewrite big_cons. case: (Z.eqb _ _ && Z.eqb _ _) => //=. by rewrite IH.
Qed.

Section Step.
Variable da : Psi_model.coo.
Hypothesis RNG : List.Forall (fun e => (Z.le Z0 e.1.1 /\ Z.lt e.1.1 (da_rows da)) /\ (Z.le Z0 e.1.2 /\ Z.lt e.1.2 (da_cols da))) (da_entries da).
Let d := Z.to_nat (da_rows da).
Let c := Z.to_nat (da_cols da).

Lemma at_da i j : at_mx (mx d c (da_array 0 +%R of_rel da)) i j = cell_sum (da_entries da) i j.
Proof.
  case: (ltnP i d) => Hi; last first.
    rewrite at_out ?Hi //. rewrite cell_nil //. apply: List.Forall_impl RNG => e H. apply/negP => /andP [/Z.eqb_spec E _].
    move/leP: Hi. rewrite /d. lia.
  case: (ltnP j c) => Hj; last first.
    rewrite at_out ?Hj ?orbT //. rewrite cell_nil //. apply: List.Forall_impl RNG => e H. apply/negP => /andP [_ /Z.eqb_spec E].
    move/leP: Hj. rewrite /c. lia.
  by rewrite at_mxE mxE /da_array build_mget //= fold_cells.
Qed.
End Step.

Lemma landed_total st' s i j : step_lands st' s -> landed s i j = total of_rel st' (sl_data s) i j.
Proof.
  rewrite /landed /total /step_lands. elim=> [|x e l l' [u [v [Hu [Hv [HL HE]]]]] _ IH]; first by rewrite !big_nil.
  rewrite !big_cons IH HL HE /hits Hu Hv. by [].
Qed.

Lemma landed_eq s (P : nat -> nat -> bool) (f g : nat -> nat -> nat) i j :
  List.Forall (fun e : Z * Z * Z => Z.eqb (landing s e.1.1 e.1.2).1 (Z.of_nat i) && Z.eqb (landing s e.1.1 e.1.2).2 (Z.of_nat j)
     = ~~ P i j && (Z.eqb e.1.1 (Z.of_nat (f i j)) && Z.eqb e.1.2 (Z.of_nat (g i j)))) (da_entries (sl_da s)) ->
  landed s i j = if P i j then 0 else cell_sum (da_entries (sl_da s)) (f i j) (g i j).
Proof.
  rewrite /landed /cell_sum. case: (P i j) => /=; elim=> [|e l H _ IH]; rewrite ?big_nil // !big_cons H //=; by rewrite IH.
Qed.

Lemma eqb_b (a b : Z) : Z.eqb a b = true <-> a = b. Proof. exact: Z.eqb_eq. Qed.

Lemma landed_mode s m n : sl_users s = Z.of_nat m -> sl_items s = Z.of_nat n ->
  dims (sl_mode s) (sl_da s) (Z.of_nat m) (Z.of_nat n) -> forall i j,
  landed s i j = match sl_mode s with
  | MNew => if (i < m)%N || (j < n)%N then 0 else cell_sum (da_entries (sl_da s)) (i - m) (j - n)
  | MNewUsers => if (i < m)%N then 0 else cell_sum (da_entries (sl_da s)) j (i - m)
  | MNewItems => if (j < n)%N then 0 else cell_sum (da_entries (sl_da s)) i (j - n)
  | MOld => cell_sum (da_entries (sl_da s)) i j
  end.
Proof.
  move=> Hu Hi [_ [_ [_ RNG]]] i j. case: s Hu Hi RNG => md nu ni dat da /= -> -> RNG.
  case: md.
  - rewrite (@landed_eq _ (fun i j => (i < m)%N || (j < n)%N) (fun i j => i - m)%N (fun i j => j - n)%N) //.
    apply: List.Forall_impl RNG => -[[a b] v] /= H. apply/idP/idP.
      move=> /andP [/eqb_b E1 /eqb_b E2].
      have -> : (i < m)%N = false by apply/negbTE; rewrite -leqNgt; apply/leP; lia.
      have -> : (j < n)%N = false by apply/negbTE; rewrite -leqNgt; apply/leP; lia.
      rewrite -!minusE /=. apply/andP; split; apply/eqb_b; lia.
    rewrite negb_or -!leqNgt -andbA -!minusE => /and4P [/leP L1 /leP L2 /eqb_b E1 /eqb_b E2].
    apply/andP; split; apply/eqb_b; lia.
  - rewrite (@landed_eq _ (fun i j => (i < m)%N) (fun i j => j)%N (fun i j => i - m)%N) //.
    apply: List.Forall_impl RNG => -[[a b] v] /= H. apply/idP/idP.
      move=> /andP [/eqb_b E1 /eqb_b E2].
      have -> : (i < m)%N = false by apply/negbTE; rewrite -leqNgt; apply/leP; lia.
      rewrite -!minusE /=. apply/andP; split; apply/eqb_b; lia.
    rewrite -!leqNgt -!minusE => /and3P [/leP L2 /eqb_b E1 /eqb_b E2].
    apply/andP; split; apply/eqb_b; lia.
  - rewrite (@landed_eq _ (fun i j => (j < n)%N) (fun i j => i)%N (fun i j => j - n)%N) //.
    apply: List.Forall_impl RNG => -[[a b] v] /= H. apply/idP/idP.
      move=> /andP [/eqb_b E1 /eqb_b E2].
      have -> : (j < n)%N = false by apply/negbTE; rewrite -leqNgt; apply/leP; lia.
      rewrite -!minusE /=. apply/andP; split; apply/eqb_b; lia.
    rewrite -!leqNgt -!minusE => /and3P [/leP L2 /eqb_b E1 /eqb_b E2].
    apply/andP; split; apply/eqb_b; lia.
  - by rewrite (@landed_eq _ (fun i j => false) (fun i j => i)%N (fun i j => j)%N) //; apply: List.Forall_impl RNG.
Qed.
End Cells.
