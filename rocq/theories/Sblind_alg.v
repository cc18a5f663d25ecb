(** The scores of a sequential model without approximation error. *)
From Coq Require Import ZArith Lia.
From Verif Require Import Prelude Prelude_proofs DataPrep_model DataPrep_spec History_model History_spec Psi_model Tirec_model Tirec_spec
  Tensor_model Tensor_spec Matrix_model Attention_model Attention_spec LinAlg_model Tucker_model Hooi_model Upd_model Nti_model.
From Verif Require Attention_main.
Set Warnings "-notation-overridden".
From mathcomp Require Import all_ssreflect all_algebra.
From Verif Require Import LinAlg_spec LinAlg_bridge Tucker_spec Tucker_bridge Tucker_main Hooi_spec
  Upd_spec Exact_spec Nti_spec Nti_exact Nti_scores Sblind_spec.
Set Implicit Arguments.
Unset Strict Implicit.
Unset Printing Implicit Defensive.
Import GRing.Theory.
Local Open Scope ring_scope.

Section Alg.
Variable R : realFieldType.
Variables (r0 r1 r2 L : nat) (x : @nti_state R).
Hypothesis MO : model_ok r0 r1 r2 L x.
Variables (X : cell -> R) (M : 'M[R]_L).
Hypothesis RP : reproduces x X M.
Notation n0 := (n_rows x 0).
Notation n1 := (n_rows x 1).
Notation PV := (proj n1 r1 (factor (nt_fs x) 1)).

Definition slice (t : cell -> R) (u : nat) : 'M[R]_(n1, L) := \matrix_(i, q) t (u, i : nat, q : nat).

Lemma slice_kept u : (u < n0)%N -> PV *m slice (value L x) u = slice (value L x) u.
Proof.
  move=> Hu. have [[U1 V1 W1] [_ OV _] _ _ _] := MO.
  have E : PV *m unf 1 0 n1 n0 L (value L x) = unf 1 0 n1 n0 L (value L x).
  { have -> : unf 1 0 n1 n0 L (value L x) = unf 1 0 n1 n0 L (rep3 (nt_fs x) (nt_core x)).
      by apply: Nti_rank.unf_eq => i j k Hi Hj Hk; rewrite value_in // /inside /= Hi Hj Hk.
    have PVV : PV *m mx n1 r1 (factor (nt_fs x) 1) = mx n1 r1 (factor (nt_fs x) 1) by rewrite /proj -mulmxA OV mulmx1.
    by rewrite /rep3 (rep_unf1 _ U1 V1 W1) -mulmxA (mulmxA PV) PVV. }
  apply/matrixP => i q. have := congr1 (fun B : 'M_(n1, n0 * L) => B i (lohi (Ordinal Hu) q)) E.
  rewrite !mxE !lo_lohi !hi_lohi /place /= => <-. apply: eq_bigr => j _. by rewrite !mxE lo_lohi hi_lohi.
Qed.

Lemma places_kept u : (u < n0)%N -> PV *m slice X u = slice X u.
Proof.
  move=> Hu. have [MU _ V _] := RP.
  have E : slice (value L x) u = slice X u *m M.
  { apply/matrixP => i q. rewrite !mxE V //. by apply: eq_bigr => p _; rewrite !mxE. }
  have {}E : slice X u = slice (value L x) u *m invmx M by rewrite E mulmxK.
  by rewrite E mulmxA slice_kept.
Qed.

Lemma item_kept u (j : 'I_n1) (p : 'I_L) : (u < n0)%N -> X (u, j : nat, p : nat) != 0 -> forall i, PV i j = (i == j)%:R.
Proof.
  move=> Hu NZ i. have [_ ONE _ _] := RP.
  have C l : l != j -> X (u, l : nat, p : nat) = 0.
  { move=> NE. apply/eqP/negPn/negP => H. move/negP: NE; apply. apply/eqP/val_inj. exact: ONE H NZ. }
  have S l : slice X u l p = X (u, l : nat, p : nat) by rewrite mxE.
  have : (PV *m slice X u) i p = slice X u i p by rewrite places_kept.
  rewrite mxE (bigD1 j) //= big1 ?addr0; last by move=> l NE; rewrite S C // mulr0.
  rewrite !S => E. apply: (mulIf NZ). rewrite E. case: (altP (i =P j)) => [->|NE]; first by rewrite mul1r.
  by rewrite C // mul0r.
Qed.

Variables (a ainv : mat R) (st : ti_state).
Hypotheses (SA : shape L L a) (SI : shape L L ainv).
Hypotheses (W : ti_wf L st) (F : follows x st).
Hypothesis PE : position_embeddings 0 +%R *%R a ainv (factor (nt_fs x) 2) = Ok (nt_aw x, nt_last x).

(** An item that is not among the user's last [L] has score 0. *)
Lemma unseen_zero u d q i : dget u (nt_seq x) = Some d -> nti_scores 0 +%R *%R x u = Ok q ->
  (i < n1)%N -> ~ List.In (Z.of_nat i) (dq_items d) -> List.nth i q 0 = 0.
Proof.
  move=> D EQ Hi NI. have [[U1 V1 W1] _ _ _ [_ _ _ [_ _ P2] [_ _ L2]]] := MO. have L1 : (0 < L)%N := leq_trans P2 L2.
  have EW : mr (factor (nt_fs x) 2) = L by case: W1.
  have Hp : (L.-1 < L)%N by rewrite prednK.
  have [e Ee] : exists e : 'I_L, (e : nat) = L.-1 by exists (Ordinal Hp).
  have [A1 A2 WT] := weight SA SI W1 Ee PE.
  move: EQ. rewrite /nti_scores.
  have K := Attention_main.user_scores_main _ _ _ _ _ _ (RT [comRingType of R]) (nt_seq x) (factor (nt_fs x) 1) (factor (nt_fs x) 2) (nt_aw x) (nt_last x) u.
  rewrite EW in K. case: (K A1 A2) => _ {}K.
  case: (K d D) => H0 [_ H1]. rewrite (proj1 V1) in H1. set h := Nat.min _ _ in H0 H1.
  case: (Nat.eq_dec h 0) => Hh; first by rewrite H0.
  have HLn t : (t < h)%coq_nat -> (t < length (latest_first d))%coq_nat.
    by move: (Nat.le_min_l (length (latest_first d)) (L - 1)%coq_nat); rewrite -/h; lia.
  have RG t : (t < h)%coq_nat -> Z.le 0 (List.nth t (latest_first d) Z0) /\ Z.lt (List.nth t (latest_first d) Z0) (Z.of_nat n1).
    move=> Ht. apply: (items_inside W F D). exact: HLn.
  case: (H1 ltac:(lia) RG) => q' [-> [LQ Q]] [<-]. rewrite Q; last by apply/ltP.
  rewrite sumn_big big1 // => t _.
  have Ht : (t < h)%coq_nat by apply/ltP; exact: ltn_ord.
  have [P0 P1] := RG t Ht. have HI := List.nth_In (latest_first d) Z0 (HLn t Ht).
  move: P0 P1 HI. move: (List.nth t (latest_first d) Z0) => z P0 P1 HI.
  move: HI. rewrite /latest_first -List.in_rev => /List.filter_In [HI NP].
  have Hz : (Z.to_nat z < n1)%N by apply/ltP; lia.
  have [_ _ _ CV] := RP. have NZ : z <> PAD_VALUE by move=> EZ; move: NP; rewrite EZ Z.eqb_refl.
  have [u' [p [Hu' NX]]] := CV u d z D HI NZ.
  have := item_kept (j := Ordinal Hz) Hu' NX (Ordinal Hi).
  have -> : (Ordinal Hi == Ordinal Hz) = false.
  { apply/negP => /eqP /(congr1 val) /= E. apply: NI. by rewrite E Z2Nat.id. }
  rewrite /= => E. rewrite (_ : inner _ _ _ _ _ _ = 0) ?mul0r // -[RHS]E /inner sumn_big (proj2 V1) /proj !mxE.
  by apply: eq_bigr => c _; rewrite !mxE.
Qed.
End Alg.
