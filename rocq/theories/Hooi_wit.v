(** Rational data for the concrete cases of the Hooi theorems: two sweeps of rank one on a
    2 x 2 x 2 tensor with a non-trivial attention matrix. *)
From Verif Require Import Prelude Tensor_model Tensor_spec Matrix_model Attention_model LinAlg_model Hooi_model.
Set Warnings "-notation-overridden".
From mathcomp Require Import all_ssreflect all_algebra.
From Verif Require Import LinAlg_spec LinAlg_tables Tucker_spec Hooi_spec.
From Verif Require Hooi_final.
Set Implicit Arguments.
Unset Strict Implicit.
Unset Printing Implicit Defensive.
Import GRing.Theory.
Local Open Scope ring_scope.

Definition hx (z : int) : rat := z%:Q.
Definition col (a b : rat) : mat rat := mkMat 2 1 [:: a; b].
Definition h_inds : list cell := [:: (0, 0, 0); (0, 0, 1); (0, 1, 0); (0, 1, 1); (1, 0, 0); (1, 0, 1); (1, 1, 0); (1, 1, 1)]%N.
Definition h_vals : list rat := [:: hx (-48); hx 192; hx 385; hx (-385); hx 400; hx (-400); hx (-432); hx 288].
Definition h_att : mat rat := mkMat 2 2 [:: hx 1; hx 0; hx 1; hx 1].
Definition one11 : mat rat := mkMat 1 1 [:: hx 1].

(** Inner SVDs: the single columns met during the two sweeps. *)
Definition h_svd_table : list (mat rat * (mat rat * list rat * mat rat)) :=
  [:: (col (hx 144) (hx 0), (col (hx 1) (hx 0), [:: hx 144], one11));
      (col (hx 144) (hx 192), (col (frac 3 5) (frac 4 5), [:: hx 240], one11));
      (col (hx 240) (hx (-320)), (col (frac 3 5) (frac (-4) 5), [:: hx 400], one11));
      (col (hx 400) (hx (-300)), (col (frac 4 5) (frac (-3) 5), [:: hx 500], one11));
      (col (hx 0) (hx 625), (col (hx 0) (hx 1), [:: hx 625], one11));
      (col (hx 3) (hx 4), (col (frac 3 5) (frac 4 5), [:: hx 5], one11));
      (col (hx 5) (hx 12), (col (frac 5 13) (frac 12 13), [:: hx 13], one11));
      (col (hx 13) (hx 0), (col (hx 1) (hx 0), [:: hx 13], one11))].
Definition h_qr_table : list (mat rat * (mat rat * mat rat)) := [:: (col (hx 1) (hx 0), (col (hx 1) (hx 0), one11)); (one11, (one11, one11))].
Definition h_qr : mat rat -> res (mat rat * mat rat) := lookup h_qr_table.
Definition h_rand (mode n r : nat) : mat rat := build n r (fun i j => if (i == 0%N) && (j == 0%N) then hx 1 else hx 0).
Definition h_svd (t : nat) : mat rat -> res (mat rat * list rat * mat rat) := lookup h_svd_table.
Definition h_rsvd (t : nat) (x : mat rat) (r : nat) : res (mat rat * list rat * mat rat) :=
  if (minn (mr x) (mc x) <= r)%N then h_svd t x else Err LinAlgError.

(** Sum of squares of the stored cells, and "not smaller". *)
Definition h_norm (t : ten rat) : rat := foldr (fun x acc => x * x + acc) 0 (tdat t).
Definition h_grew (a b : rat) : bool := (b <= a)%R.

Lemma h_qr_ok : qr_ok h_qr.
Proof. apply: qr_table_ok. by vm_compute. Qed.
Lemma h_rand_ok mode : randn_ok (h_rand mode).
Proof. by []. Qed.
Lemma h_svd_ok t : svd_ok (h_svd t).
Proof. apply: svd_table_ok. by vm_compute. Qed.
Lemma h_inner : inner_ok h_rsvd /\ optimal h_rsvd.
Proof. exact: (Hooi_final.full_svd_main h_svd_ok). Qed.
Lemma h_args : hooi_args 2 1 2 1 2 1 h_inds h_vals.
Proof.
  split=> //; split=> //; split=> //. rewrite /h_inds.
  by repeat (apply: List.Forall_cons; first by split; [|split]; apply/ltP).
Qed.

(** Data without attention. *)
Definition p_inds : list cell := [:: (0, 0, 0); (1, 0, 0); (0, 1, 0)]%N.
Definition p_vals : list rat := [:: hx 3; hx 4; hx 20].
Definition p_ten : ten rat := mkTen (2, 2, 1)%N [:: hx 3; hx 20; hx 4; hx 0].

(** Right vectors of a truncated and of a full SVD; sparse SVD. *)
Definition h_right (t : nat) (x : mat rat) (r : nat) : res (mat rat * list rat * mat rat) :=
  if [&& r == 1%N, mc x == 2%N & (0 < mr x)%N] then Ok (mkMat (mr x) 1 [::], [::], mkMat 1 2 [:: frac 3 5; frac 4 5])
  else if [&& r == 1%N, mc x == 1%N & (0 < mr x)%N] then Ok (mkMat (mr x) 1 [::], [::], one11)
  else Err LinAlgError.
Definition h_full (x : mat rat) : res (mat rat * list rat * mat rat) :=
  if mc x == 2%N then Ok (mkMat (mr x) (mr x) [::], [::], mkMat 2 2 [:: frac 3 5; frac 4 5; frac 4 5; frac (-3) 5])
  else Err LinAlgError.
Definition h_svds (x : @coo rat) (r : nat) : res (mat rat) :=
  if (coo_r x == 2%N) && (r == 1%N) then Ok (col (frac 3 5) (frac 4 5))
  else if (coo_r x == 1%N) && (r == 1%N) then Ok one11 else Err ValueError.

Lemma mx_eqP m n (A B : 'M[rat]_(m, n)) : (forall i j, A i j == B i j) -> A = B.
Proof. by move=> H; apply/matrixP => i j; apply/eqP. Qed.

Lemma h_right_ok : right_ok h_right.
Proof.
  move=> t x r u s vt. rewrite /h_right.
  case: ifP => [/and3P [/eqP -> /eqP E1 L] [_ _ <-]|_]; last case: ifP => // /and3P [/eqP -> /eqP E1 L] [_ _ <-].
  - rewrite /= E1. have -> : minn 1 (minn (mr x) 2) = 1%N by apply/minn_idPl; rewrite leq_min L.
    split=> //. apply: mx_eqP => i j. rewrite !ord1 mxE !big_ord_recl big_ord0 !mxE /=. by vm_compute.
  - rewrite /= E1. have -> : minn 1 (minn (mr x) 1) = 1%N by apply/minn_idPl; rewrite leq_min L.
    split=> //. apply: mx_eqP => i j. rewrite !ord1 mxE !big_ord_recl big_ord0 !mxE /=. by vm_compute.
Qed.
Lemma h_full_ok : svd_full_ok h_full.
Proof.
  move=> x u s vt. rewrite /h_full. case: eqP => // -> [_ _ <-]. split=> //. apply: mx_eqP => i j.
  rewrite mxE !big_ord_recl big_ord0 !mxE /=.
  by case: i => -[|[|]] //= ?; case: j => -[|[|]] //= ?; vm_compute.
Qed.
Lemma h_svds_ok : svds_ok h_svds.
Proof.
  move=> x r u. rewrite /h_svds. case: ifP => [/andP [/eqP -> /eqP ->] [<-]|_].
    split=> //. apply: mx_eqP => i j. rewrite !ord1 mxE !big_ord_recl big_ord0 !mxE /=. by vm_compute.
  case: ifP => // /andP [/eqP -> /eqP ->] [<-]. split=> //.
  apply: mx_eqP => i j. rewrite !ord1 mxE !big_ord_recl big_ord0 !mxE /=. by vm_compute.
Qed.
Lemma p_args : hooi_args 2 1 2 1 1 1 p_inds p_vals.
Proof.
  split=> //; split=> //; split=> //. rewrite /p_inds.
  by repeat (apply: List.Forall_cons; first by split; [|split]; apply/ltP).
Qed.

Definition show (r : res (@factors rat * option (ten rat) * unit)) : option (seq rat * seq rat * seq rat * seq rat) :=
  match r with
  | Ok ((f0, f1, f2), Some g, _) => Some (mdat f0, mdat f1, mdat f2, tdat g)
  | _ => None
  end.
