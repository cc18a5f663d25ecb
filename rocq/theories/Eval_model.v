(** Model of /repo/source/evaluation.py over exact rationals. *)
From Coq Require Import ZArith QArith Qminmax List Bool Lia.
From Verif Require Import Prelude.
Import ListNotations.
Open Scope Z_scope.

(** [1 / (1 + j)]. *)
Definition inv_rank (j : nat) : Q := 1 # Pos.of_succ_nat j.

(** [1 / n] style division of a float total by a length; numba's default error
    model raises ZeroDivisionError. *)
Definition div_len (total : Q) (n : nat) : res Q :=
  match n with
  | O => Err ZeroDivisionError
  | S m => Ok (total / inject_Z (Z.of_nat (S m)))%Q
  end.

(** source/evaluation.py:12-15, inner loop with [break]. *)
Fixpoint rr_loop (j : nat) (u_recs : list Z) (test_item : Z) : Q :=
  match u_recs with
  | [] => 0%Q
  | r :: rs => if r =? test_item then inv_rank j else rr_loop (S j) rs test_item
  end.

(** source/evaluation.py:7-16 [mrr].  [rec_array] is the list of rows; a missing
    row is an out-of-range access. *)
Definition mrr (rec_array : list (list Z)) (test_items : list Z) : res Q :=
  if (length rec_array <? length test_items)%nat then Err OutOfBounds else
  let total := fold_left (fun t rt => Qplus t (rr_loop 0 (fst rt) (snd rt)))
                 (combine rec_array test_items) 0%Q in
  div_len total (length test_items).

(** source/evaluation.py:19-26 [hr]. *)
Definition hr (rec_array : list (list Z)) (test_items : list Z) : res Q :=
  if (length rec_array <? length test_items)%nat then Err OutOfBounds else
  let total := fold_left (fun t rt => if memZ (snd rt) (fst rt) then Qplus t 1 else t)
                 (combine rec_array test_items) 0%Q in
  div_len total (length test_items).

(** source/evaluation.py:29-34 [wji]; both vectors have the same length at the
    only call site. *)
Definition wji (u v : list Q) : res Q :=
  let '(numer, denom) :=
    fold_left (fun nd uv => (Qplus (fst nd) (Qmin (fst uv) (snd uv)),
                             Qplus (snd nd) (Qmax (fst uv) (snd uv))))
      (combine u v) (0%Q, 0%Q) in
  if Qeq_bool denom 0 then Err ZeroDivisionError else Ok (numer / denom)%Q.

(** One element of the fancy assignment [bow[idx] = w]: negative indices wrap
    once, anything else outside is an unchecked access. *)
Definition assign1 (N : nat) (bow : res (list Q)) (iw : Z * Q) : res (list Q) :=
  do b <- bow;
  let i := fst iw in
  let j := if i <? 0 then i + Z.of_nat N else i in
  if (0 <=? j) && (j <? Z.of_nat N) then Ok (set_nth (Z.to_nat j) (snd iw) b)
  else Err OutOfBounds.

(** source/evaluation.py:41-43: [bow = np.zeros(N); bow[row] = 1/np.arange(1, topn+1)];
    a row whose length is not [topn] cannot be assigned (ValueError). *)
Definition bow (N topn : nat) (row : list Z) : res (list Q) :=
  if negb (length row =? topn)%nat then Err ValueError else
  fold_left (assign1 N) (combine row (map inv_rank (seq 0 topn))) (Ok (repeat 0%Q N)).

(** Contribution of one user, source/evaluation.py:41-44. *)
Definition wji_user (N topn : nat) (r1 r2 : list Z) : res Q :=
  do b1 <- bow N topn r1;
  do b2 <- bow N topn r2;
  wji b1 b2.

(** source/evaluation.py:37-45 [wji_sim]; [topn] is the second component of
    [arr1.shape]. *)
Definition wji_sim (arr1 arr2 : list (list Z)) (topn N : nat) : res Q :=
  if (length arr2 <? length arr1)%nat then Err OutOfBounds else
  do contribs <- mapM (fun rr => wji_user N topn (fst rr) (snd rr)) (combine arr1 arr2);
  div_len (fold_left Qplus contribs 0%Q) (length arr1).
