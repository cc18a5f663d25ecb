(** QR and SVD oracles given by finite tables of rational matrices: the concrete cases
    of the matrix theorems.  Outside the table the oracle raises. *)
From Verif Require Import Prelude Tensor_model Matrix_model Attention_model LinAlg_model.
Set Warnings "-notation-overridden".
From mathcomp Require Import all_ssreflect all_algebra.
From Verif Require Import LinAlg_spec LinAlg_bridge.
Set Implicit Arguments.
Unset Strict Implicit.
Unset Printing Implicit Defensive.
Import GRing.Theory.
Local Open Scope ring_scope.

Notation qdot := (dot (0 : rat) +%R *%R).

(** [a / b]. *)
Definition frac (a : int) (b : nat) : rat := a%:Q / b%:Q.

(** Equal shapes and equal cells. *)
Definition same (a b : mat rat) : bool :=
  [&& mr a == mr b, mc a == mc b & all (fun i => all (fun j => mget 0 a i j == mget 0 b i j) (iota 0 (mc a))) (iota 0 (mr a))].
Definition same_res (a : res (mat rat)) (b : mat rat) : bool := match a with Ok c => same c b | Err _ => false end.

Fixpoint lookup {B} (tab : list (mat rat * B)) (x : mat rat) : res B :=
  match tab with
  | nil => Err LinAlgError
  | (y, b) :: t => if same x y then Ok b else lookup t x
  end.

Definition qr_entry (e : mat rat * (mat rat * mat rat)) : bool :=
  let: (x, (q, r)) := e in let k := minn (mr x) (mc x) in
  [&& mr q == mr x, mc q == k, mr r == k & mc r == mc x] &&
  (same_res (qdot q r) x && same_res (qdot (transpose 0 q) q) (eye 0 1 k)).
Definition svd_entry (e : mat rat * (mat rat * list rat * mat rat)) : bool :=
  let: (x, (u, s, vt)) := e in let k := minn (mr x) (mc x) in
  [&& mr u == mr x, mc u == k, size s == k, mr vt == k & mc vt == mc x] &&
  [&& match qdot u (np_diag 0 s) with Ok a => same_res (qdot a vt) x | Err _ => false end,
      same_res (qdot (transpose 0 u) u) (eye 0 1 k) & same_res (qdot vt (transpose 0 vt)) (eye 0 1 k)].

Lemma same_mx a b m n : shape m n b -> same a b -> shape m n a /\ mx m n a = mx m n b.
Proof.
  move=> [H1 H2] /and3P [/eqP E1 /eqP E2 /allP H]; split; first by split; rewrite ?E1 ?E2.
  apply/matrixP => i j; rewrite !mxE. apply/eqP.
  have /H /allP Hj : (i : nat) \in iota 0 (mr a) by rewrite mem_iota /= add0n E1 H1.
  by apply: Hj; rewrite mem_iota /= add0n E2 H2.
Qed.

Lemma same_dot a b c m k n : shape m k a -> shape k n b -> shape m n c -> same_res (qdot a b) c ->
  mx m k a *m mx k n b = mx m n c.
Proof.
  move=> Ha Hb Hc. have [d -> [Hd Ed]] := dot_ok Ha Hb. by rewrite /= -Ed => /(same_mx Hc) [].
Qed.

Lemma lookup_in B (tab : list (mat rat * B)) x b : lookup tab x = Ok b ->
  exists y, List.In (y, b) tab /\ same x y.
Proof.
  elim: tab => [|[y c] t IH] //=; case: ifP => [S [<-]|_ /IH [z [H1 H2]]].
  - by exists y; split => //; left.
  - by exists z; split => //; right.
Qed.

Lemma all_in B (p : B -> bool) (t : list B) x : all p t -> List.In x t -> p x.
Proof. by elim: t => //= y t IH /andP [H1 H2] [<-|/IH]; auto. Qed.

Lemma qr_table_ok tab : all qr_entry tab -> qr_ok (lookup tab).
Proof.
  move=> A x q r E; case: (lookup_in E) => y [I S]. have := all_in A I. rewrite /=.
  move=> /andP [/and4P [/eqP Q1 /eqP Q2 /eqP R1 /eqP R2] /andP [P O]].
  have Sy : shape (mr y) (mc y) y by []. case: (same_mx Sy S) => -[-> ->] Ex.
  have Hq : shape (mr y) (minn (mr y) (mc y)) q by []. have Hr : shape (minn (mr y) (mc y)) (mc y) r by [].
  split => //; first by rewrite Ex; apply: same_dot P.
  have [Hqt Eqt] := transpose_ok Hq. have [He Ee] := eye_ok rat_comRing (minn (mr y) (mc y)).
  by rewrite -Eqt -Ee; apply: same_dot O.
Qed.

Lemma svd_table_ok tab : all svd_entry tab -> svd_ok (lookup tab).
Proof.
  move=> A x u s vt E; case: (lookup_in E) => y [I S]. have := all_in A I. rewrite /=.
  move=> /andP [/and5P [/eqP U1 /eqP U2 /eqP S1 /eqP V1 /eqP V2] /and3P [P O1 O2]].
  have Sy : shape (mr y) (mc y) y by []. case: (same_mx Sy S) => -[-> ->] Ex.
  set k := minn (mr y) (mc y) in U2 S1 V1 O1 O2 *.
  have Hu : shape (mr y) k u by []. have Hv : shape k (mc y) vt by [].
  have [Hd Ed] := diag_ok S1. have [Hut Eut] := transpose_ok Hu. have [Hvt Evt] := transpose_ok Hv.
  have [He Ee] := eye_ok rat_comRing k.
  split => //.
  - move: P. have [a -> [Ha Ea]] := dot_ok Hu Hd. rewrite -Ed -Ea Ex. exact: same_dot.
  - split; first by rewrite -Eut -Ee; apply: same_dot O1.
    by rewrite -Evt -Ee; apply: same_dot O2.
Qed.

(** A truncated SVD given by a table. *)
Definition rsvd_entry (e : mat rat * (mat rat * list rat * mat rat)) : bool :=
  let: (x, (u, s, vt)) := e in [&& mr u == mr x, mc u == size s, mr vt == size s & mc vt == mc x].
Definition rsvd_lookup (tab : list (mat rat * (mat rat * list rat * mat rat))) (x : mat rat) (rank : nat) := lookup tab x.

Lemma rsvd_table_ok tab : all rsvd_entry tab -> rsvd_ok (rsvd_lookup tab).
Proof.
  move=> A x rank u s vt E; case: (lookup_in E) => y [I S]. have := all_in A I. rewrite /=.
  move=> /and4P [/eqP U1 /eqP U2 /eqP V1 /eqP V2].
  have Sy : shape (mr y) (mc y) y by []. case: (same_mx Sy S) => -[-> ->] _.
  by exists (size s).
Qed.

(** A sorting [argsort] for the order of the rationals. *)
Definition rat_le (x y : rat) : bool := le_rat x y.
Definition rat_argsort (s : list rat) : list nat := sort (fun i j => rat_le (nth 0 s i) (nth 0 s j)) (iota 0 (size s)).

Lemma rat_argsort_ok : argsort_ok rat_le rat_argsort.
Proof.
  move=> s; split; first by rewrite perm_sort.
  have T : transitive (fun i j => rat_le (nth 0 s i) (nth 0 s j)).
    by move=> j i k; rewrite /rat_le; apply: (@Order.POrderTheory.le_trans _ rat_porderType).
  have S : sorted (fun i j => rat_le (nth 0 s i) (nth 0 s j)) (rat_argsort s).
    by apply: sort_sorted => i j; exact: (@Order.TotalTheory.le_total _ rat_orderType).
  have Sz : size (rat_argsort s) = size s by rewrite size_sort size_iota.
  move=> i j /andP [Hij Hj].
  apply: (sorted_ltn_nth T 0%N S) => //; by rewrite inE Sz // (ltn_trans Hij).
Qed.
