(** Concrete readers and files for the properties of the CSV trip. *)
From Coq Require Import ZArith Lia List Bool Ascii String Sorting.Sorted Sorting.Permutation.
From Verif Require Import Prelude Prelude_proofs DataPrep_main Stream_spec Stream_main Tables_model Tables_main Pcore_model Rawlog_main Csv_model Csv_spec Csv_main.
Import ListNotations.
Open Scope Z_scope.

(** Decimal numbers. *)
Fixpoint digits (acc : Z) (s : string) : option Z :=
  match s with
  | EmptyString => Some acc
  | String a s' => let n := Z.of_nat (nat_of_ascii a) - 48 in
                   if (0 <=? n) && (n <? 10) then digits (10 * acc + n) s' else None
  end.
Definition decimal (_ : list string) (s : string) : option Z := match s with EmptyString => None | _ => digits 0 s end.

Definition cell_dec (a b : cell) : {a = b} + {a <> b}.
Proof. decide equality; [apply Z.eq_dec|apply string_dec]. Defined.
Definition some_cats (l : list cell) : list cell := nodup cell_dec (filter (fun c => negb (is_missing c)) l).
Lemma some_cats_ok : categories some_cats.
Proof.
  intro l. unfold some_cats. split; [apply NoDup_nodup|]. intro c. rewrite nodup_In, filter_In. destruct c; cbn; intuition congruence.
Qed.
Definition some_sort : list crow -> list crow := sort_stable (fun x y => snd x <=? snd y).
Lemma some_sorts : sorts_by (fun r : crow => snd r) some_sort.
Proof.
  intro l. split; [apply sort_stable_perm|].
  assert (H := sort_stable_sorted (fun x y : crow => snd x <=? snd y) (fun x y => Zleb_total (snd x) (snd y))
                (fun x y z => Zle_bool_trans (snd x) (snd y) (snd z)) l).
  unfold some_sort. eapply sorted_impl_in; [|exact H]. cbn. intros x y _ _ E. now apply Z.leb_le.
Qed.

(** Names. *)
Definition names (l : list string) (k : Z) : string := nth (Z.to_nat k) l EmptyString.
Definition games : Z -> string := names ["10"; "20"; "30"; "40"; "50"]%string.
Definition players : Z -> string := names ["ann"; "7"; "bob"; "007"; "NA"]%string.
Definition nameless : Z -> string := names ["ann"; "bob"; "eve"; "joe"; "NA"; "null"]%string.
Definition numbered : Z -> string := names ["1"; "2"; "3"; "4"; "eve"]%string.

(** Five, or six, users with five items each. *)
Definition five : list raw := map (fun n => (n / 5, n mod 5, n)) (zrange 25).
Definition six : list raw := map (fun n => (n / 5, n mod 5, n)) (zrange 30).
(** Items 0 and 1 of users 0-3 first. *)
Definition first_rows : list raw := map (fun n => (n / 2, n mod 2, n)) (zrange 8).
Definition other_rows : list raw :=
  map (fun n => (n / 3, 2 + n mod 3, 8 + n)) (zrange 12) ++ map (fun n => (4, n, 20 + n)) (zrange 5).

(** A test for [ids_kept]. *)
Definition kept_test (ids codes : list Z) : bool :=
  Nat.eqb (List.length codes) (List.length ids) &&
  forallb (fun p => forallb (fun q => Bool.eqb (snd p =? snd q) (fst p =? fst q)) (combine ids codes)) (combine ids codes).
Lemma kept_test_ok ids codes : kept_test ids codes = true -> ids_kept ids codes.
Proof.
  unfold kept_test. rewrite andb_true_iff. intros [L H]. apply Nat.eqb_eq in L. rewrite forallb_forall in H. split; [exact L|].
  assert (N : forall i x a, nth_error ids i = Some x -> nth_error codes i = Some a -> In (x, a) (combine ids codes)).
  { clear. revert codes. induction ids as [|y ids IH]; intros [|b codes] [|i] x a E F; cbn in *; try discriminate.
    - left. congruence.
    - right. eapply IH; eauto. }
  intros i j x y a b Ex Ey Ea Eb. specialize (H _ (N i x a Ex Ea)). rewrite forallb_forall in H. specialize (H _ (N j y b Ey Eb)).
  cbn in H. apply eqb_prop in H. destruct (Z.eqb_spec a b), (Z.eqb_spec x y); try discriminate; tauto.
Qed.

(** A test for spellings. *)
Lemma spelling_ok (user : Z -> string) (data : list raw) :
  forallb (fun r => forallb (fun q => implb (String.eqb (user (raw_user r)) (user (raw_user q))) (raw_user r =? raw_user q)) data) data = true ->
  forall r q, In r data -> In q data -> user (raw_user r) = user (raw_user q) -> raw_user r = raw_user q.
Proof.
  intros H r q Ir Iq E. rewrite forallb_forall in H. specialize (H r Ir). rewrite forallb_forall in H. specialize (H q Iq).
  rewrite E, String.eqb_refl in H. cbn in H. now apply Z.eqb_eq.
Qed.
