(** numpy operations of LinAlg_model as operations on mathcomp matrices. *)
From Verif Require Import Prelude Tensor_model Tensor_spec Tensor_sums Matrix_model Matrix_main
  Attention_model LinAlg_model.
Set Warnings "-notation-overridden".
From mathcomp Require Import all_ssreflect all_algebra.
From Verif Require Import LinAlg_spec.
Set Implicit Arguments.
Unset Strict Implicit.
Unset Printing Implicit Defensive.
Import GRing.Theory.
Local Open Scope ring_scope.

Lemma eqb_eqn (i j : nat) : Nat.eqb i j = (i == j).
Proof. by elim: i j => [|i IH] [|j] //=; rewrite IH. Qed.
Lemma leb_leq (i j : nat) : Nat.leb i j = (i <= j)%N.
Proof. by elim: i j => [|i IH] [|j] //=; rewrite IH. Qed.
Lemma ltb_ltn (i j : nat) : Nat.ltb i j = (i < j)%N.
Proof. by rewrite /Nat.ltb leb_leq. Qed.
Lemma min_minn (i j : nat) : Nat.min i j = minn i j.
Proof. by elim: i j => [|i IH] [|j] //=; rewrite IH minnSS. Qed.
Lemma length_size T (l : list T) : length l = size l.
Proof. by elim: l => //= x l ->. Qed.
Lemma nth_nth T (d : T) (l : list T) i : List.nth i l d = nth d l i.
Proof. by elim: l i => [|x l IH] [|i] //=. Qed.
Lemma seq_iota s n : List.seq s n = iota s n.
Proof. by elim: n s => //= n IH s; rewrite IH. Qed.
Lemma firstn_take T (l : list T) i : List.firstn i l = take i l.
Proof. by elim: l i => [|x l IH] [|i] //=; rewrite IH. Qed.
Lemma rev_rev T (l : list T) : List.rev l = rev l.
Proof. by elim: l => //= x l ->; rewrite rev_cons -cats1. Qed.
Lemma forallb_all T (p : T -> bool) (l : list T) : List.forallb p l = all p l.
Proof. by elim: l => //= x l ->. Qed.

Section Bridge.
Variable R : comRingType.
Implicit Types (a b c : mat R).
Notation dot := (dot (0 : R) +%R *%R).
Notation transpose := (transpose (0 : R)).
Notation madd := (madd (0 : R) +%R).
Notation msub := (msub (0 : R) (fun x y => x - y)).
Notation mget := (mget (0 : R)).

Lemma RT : ring_theory (0 : R) 1 +%R *%R (fun x y => x - y) -%R (@eq R).
Proof.
  constructor; [exact: add0r|exact: addrC|exact: addrA|exact: mul1r|exact: mulrC|exact: mulrA|exact: mulrDl|by []|].
  by move=> u; rewrite subrr.
Qed.

Lemma sumn_big n (f : nat -> R) : Tensor_spec.sumn 0 +%R n f = \sum_(i < n) f i.
Proof.
  rewrite /Tensor_spec.sumn seq_iota -(big_mkord xpredT) /index_iota subn0.
  elim: (iota 0 n) => [|i l IH]; first by rewrite big_nil.
  by rewrite big_cons -IH.
Qed.

Lemma sum_upto_big n (f : nat -> R) : sum_upto 0 +%R n f = \sum_(i < n) f i.
Proof. by rewrite (sum_upto_sumn _ _ _ _ _ _ RT) sumn_big. Qed.

Lemma build_mget m n (f : nat -> nat -> R) i j : (i < m)%N -> (j < n)%N -> mget (build m n f) i j = f i j.
Proof. by move=> /ltP Hi /ltP Hj; apply: build_get. Qed.

Lemma mx_build m n (f : nat -> nat -> R) : mx m n (build m n f) = \matrix_(i, j) f i j.
Proof. by apply/matrixP => i j; rewrite !mxE build_mget. Qed.

Lemma shape_build m n (f : nat -> nat -> R) : shape m n (build m n f).
Proof. by []. Qed.

Lemma mx_cast m n m' n' (e : (m = m') * (n = n')) a : castmx e (mx m n a) = mx m' n' a.
Proof. by apply/matrixP => i j; rewrite castmxE !mxE. Qed.

(** Products. *)
Lemma dot_ok m k n a b : shape m k a -> shape k n b ->
  exists2 c, dot a b = Ok c & shape m n c /\ mx m n c = mx m k a *m mx k n b.
Proof.
  move=> [<- <-] [Hk <-]; rewrite /Matrix_model.dot eqb_eqn Hk eqxx.
  eexists; first by []. split; first by [].
  rewrite mx_build; apply/matrixP => i j; rewrite !mxE sum_upto_big.
  by apply: eq_bigr => t _; rewrite !mxE.
Qed.

Lemma dot_shape a b c : dot a b = Ok c -> mc a = mr b.
Proof. by rewrite /Matrix_model.dot eqb_eqn; case: eqP. Qed.

Lemma dot_err a b : mc a <> mr b -> dot a b = Err ValueError.
Proof. by rewrite /Matrix_model.dot eqb_eqn; case: eqP. Qed.

Lemma transpose_ok m n a : shape m n a -> shape n m (transpose a) /\ mx n m (transpose a) = (mx m n a)^T.
Proof.
  move=> [<- <-]; split; first by [].
  by rewrite /Attention_model.transpose mx_build; apply/matrixP => i j; rewrite !mxE.
Qed.

(** Entrywise operations. *)
Lemma broadcast_ok f m n a b : shape m n a -> shape m n b ->
  exists2 c, broadcast (0 : R) f a b = Ok c & shape m n c /\ forall i j, (i < m)%N -> (j < n)%N ->
     mget c i j = f (mget a i j) (mget b i j).
Proof.
  move=> [Hm Hn] [Hm' Hn']; rewrite /broadcast /bdim !eqb_eqn Hm Hm' Hn Hn' !eqxx /=.
  eexists; first by []. split; first by []. move=> i j Hi Hj; rewrite build_mget // /bget !eqb_eqn Hm Hn Hm' Hn'.
  have -> : (if m == 1%N then 0%N else i) = i by case: eqP Hi => // ->; case: i.
  by have -> : (if n == 1%N then 0%N else j) = j by case: eqP Hj => // ->; case: j.
Qed.

Lemma madd_ok m n a b : shape m n a -> shape m n b ->
  exists2 c, madd a b = Ok c & shape m n c /\ mx m n c = mx m n a + mx m n b.
Proof.
  move=> Ha Hb; case: (broadcast_ok +%R Ha Hb) => c E [S P].
  by exists c => //; split => //; apply/matrixP => i j; rewrite !mxE P.
Qed.

Lemma msub_ok m n a b : shape m n a -> shape m n b ->
  exists2 c, msub a b = Ok c & shape m n c /\ mx m n c = mx m n a - mx m n b.
Proof.
  move=> Ha Hb; case: (broadcast_ok (fun x y => x - y) Ha Hb) => c E [S P].
  by exists c => //; split => //; apply/matrixP => i j; rewrite !mxE P.
Qed.

(** Diagonal, identity, zero. *)
Lemma diag_ok (s : list R) k : size s = k -> shape k k (np_diag 0 s) /\ mx k k (np_diag 0 s) = dg k s.
Proof.
  move=> <-; rewrite /np_diag length_size; split; first by [].
  rewrite mx_build; apply/matrixP => i j; rewrite !mxE eqb_eqn nth_nth mulrb.
  by rewrite -val_eqE /=; case: eqP => // ->.
Qed.

Lemma eye_ok k : shape k k (eye (0 : R) 1 k) /\ mx k k (eye (0 : R) 1 k) = 1%:M.
Proof.
  split; first by []. rewrite /eye mx_build; apply/matrixP => i j; rewrite !mxE eqb_eqn.
  by rewrite -val_eqE /=; case: eqP.
Qed.

Lemma zeros_ok m n : shape m n (zeros (0 : R) m n) /\ mx m n (zeros (0 : R) m n) = 0.
Proof. by split => //; rewrite /zeros mx_build; apply/matrixP => i j; rewrite !mxE. Qed.

Lemma as_matrix_ok k l (s : middle R) : sshape k l s ->
  shape k l (as_matrix 0 s) /\ mx k l (as_matrix 0 s) = smx k l s.
Proof.
  case: s => [v|m] //= [Hk Hl]; have [[S1 S2] E] := diag_ok Hk; split; first by split => //; rewrite S2 -Hl Hk.
  apply/matrixP => i j. rewrite !mxE /np_diag length_size.
  have Hj : (j < size v)%N by rewrite Hl.
  have Hi : (i < size v)%N by rewrite Hk.
  by rewrite build_mget // eqb_eqn nth_nth mulrb.
Qed.

(** Blocks. *)
Lemma hstack_ok m n1 n2 a b : shape m n1 a -> shape m n2 b ->
  exists2 c, hstack (0 : R) a b = Ok c & shape m (n1 + n2) c /\ mx m (n1 + n2) c = row_mx (mx m n1 a) (mx m n2 b).
Proof.
  move=> [<- <-] [H <-]; rewrite /hstack eqb_eqn H eqxx; eexists; first by []. split; first by [].
  rewrite mx_build; apply/matrixP => i j; rewrite !mxE ltb_ltn.
  case: splitP => k E; rewrite !mxE E.
  - by [].
  - by rewrite minusE addKn.
Qed.

Lemma hstack_shape a b c : hstack (0 : R) a b = Ok c -> mr a = mr b.
Proof. by rewrite /hstack eqb_eqn; case: eqP. Qed.

Lemma block_diag_ok m1 n1 m2 n2 a b : shape m1 n1 a -> shape m2 n2 b ->
  shape (m1 + m2) (n1 + n2) (block_diag 0 a b)
  /\ mx (m1 + m2) (n1 + n2) (block_diag 0 a b) = block_mx (mx m1 n1 a) 0 0 (mx m2 n2 b).
Proof.
  move=> [<- <-] [<- <-]; split; first by [].
  rewrite mx_build; apply/matrixP => i j; rewrite !mxE !ltb_ltn !leb_leq.
  case: (splitP i) => i' Ei; rewrite mxE; case: (splitP j) => j' Ej; rewrite !mxE Ei Ej.
  - by [].
  - by rewrite leqNgt ltn_ord.
  - by rewrite leq_addr leqNgt ltn_ord.
  - by rewrite !leq_addr /= !minusE !addKn.
Qed.

Lemma set_block_ok c r0 rl k0 cl b : shape rl cl b ->
  exists2 d, set_block (0 : R) c r0 rl k0 cl b = Ok d & shape (mr c) (mc c) d /\ forall i j, (i < mr c)%N -> (j < mc c)%N ->
    mget d i j = if [&& (r0 <= i)%N, (i < r0 + rl)%N, (k0 <= j)%N & (j < k0 + cl)%N]
                 then mget b (i - r0) (j - k0) else mget c i j.
Proof.
  move=> [Hr Hc]; rewrite /set_block !eqb_eqn Hr Hc !eqxx /=; eexists; first by []. split; first by [].
  move=> i j Hi Hj; rewrite build_mget // !leb_leq !ltb_ltn !plusE !minusE -!andbA.
  case: ifP => // /and4P [H1 H2 H3 H4]; rewrite /bget !eqb_eqn Hr Hc.
  have -> : (if rl == 1%N then 0%N else (i - r0)%N) = (i - r0)%N.
    case: eqP => // E; rewrite E addn1 ltnS in H2. by apply/eqP; rewrite eq_sym subn_eq0.
  have -> : (if cl == 1%N then 0%N else (j - k0)%N) = (j - k0)%N.
    case: eqP => // E; rewrite E addn1 ltnS in H4. by apply/eqP; rewrite eq_sym subn_eq0.
  by [].
Qed.

Lemma first_cols_ok m n k c : shape m n c -> (k <= n)%N ->
  shape m k (first_cols (0 : R) k c) /\ forall i j, (i < m)%N -> (j < k)%N -> mget (first_cols 0 k c) i j = mget c i j.
Proof.
  move=> [Hm Hn] Hk; rewrite /first_cols min_minn Hm Hn (minn_idPl Hk); split; first by [].
  by move=> i j Hi Hj; rewrite build_mget.
Qed.

Lemma first_rows_ok m n k c : shape m n c -> (k <= m)%N ->
  shape k n (first_rows (0 : R) k c) /\ forall i j, (i < k)%N -> (j < n)%N -> mget (first_rows 0 k c) i j = mget c i j.
Proof.
  move=> [Hm Hn] Hk; rewrite /first_rows min_minn Hm Hn (minn_idPl Hk); split; first by [].
  by move=> i j Hi Hj; rewrite build_mget.
Qed.

Lemma take_cols_ok m n c (idx : list nat) : shape m n c -> all (fun j => (j < n)%N) idx ->
  exists2 d, take_cols (0 : R) c idx = Ok d & shape m (size idx) d /\ forall i j, (i < m)%N -> (j < size idx)%N ->
    mget d i j = mget c i (nth 0%N idx j).
Proof.
  move=> [Hm Hn] H; rewrite /take_cols forallb_all Hn (eq_all (fun j => ltb_ltn j n)) H Hm length_size.
  eexists; first by []. split => // i j Hi Hj. by rewrite build_mget // nth_nth.
Qed.

Lemma take_vals_ok (s : list R) (idx : list nat) : all (fun j => (j < size s)%N) idx ->
  take_vals s idx = Ok [seq nth 0 s i | i <- idx].
Proof.
  rewrite /take_vals; elim: idx => //= i idx IH /andP [Hi /IH ->].
  have -> : List.nth_error s i = Some (nth 0 s i).
    by elim: s i Hi {IH} => [|x s IHs] [|i] //= Hi; apply: IHs.
  by [].
Qed.

Lemma shape_eq m n m' n' c : shape m n c -> shape m' n' c -> m = m' /\ n = n'.
Proof. by move=> [<- <-] [<- <-]. Qed.
End Bridge.
