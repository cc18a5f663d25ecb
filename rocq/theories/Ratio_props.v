(** C99: how many rows the ratios take, in double precision. *)
From Coq Require Import ZArith Reals Lia List Bool Sorting.Permutation.
From Flocq Require Import Core.
From Verif Require Import Prelude DataPrep_model Stream_model Stream_spec Tables_model Tables_spec Tables_main
  Ratio_model Ratio_spec Ratio_main Ratio_ieee Ratio_any Ratio_split.
Import ListNotations.
Open Scope Z_scope.

(** C99: the model of [int(n * ratio)] is the IEEE 754 computation, for every double; and the
    literals of the code are the doubles of the model. *)
Theorem sizes_are_ieee :
  (forall (n m e : Z) (r : R),
    0 <= n < 2 ^ 53 -> 0 < m -> -1074 <= e -> double r = (IZR m * bpow radix2 e)%R ->
    int_times n (m, e) = ieee_int_times n r)
  /\ (forall n, 0 <= n < 2 ^ 53 ->
       int_times n lit_02 = ieee_int_times n (2 / 10) /\ int_times n lit_04 = ieee_int_times n (4 / 10)
       /\ int_times n lit_07 = ieee_int_times n (7 / 10) /\ int_times n lit_08 = ieee_int_times n (8 / 10)).
Proof. exact sizes_main. Qed.
Print Assumptions sizes_are_ieee.

(** C99: any ratio between 0 and 1 takes between none and all of the rows, a larger ratio
    never takes fewer, and the number is within one of the exact one. *)
Theorem any_ratio_takes_part :
  forall (n : Z) (r : R),
    0 <= n < 2 ^ 53 -> (0 <= r <= 1)%R ->
    0 <= ieee_int_times n r <= n
    /\ (forall r', (r <= r' <= 1)%R -> ieee_int_times n r <= ieee_int_times n r')
    /\ (n < 2 ^ 50 -> Zfloor (IZR n * r) - 1 <= ieee_int_times n r <= Zfloor (IZR n * r) + 1).
Proof. exact any_main. Qed.
Print Assumptions any_ratio_takes_part.

(** C99: the ratios 0.2, 0.4 and 0.8 take exactly the rows they name, rounded down. *)
Theorem fifths_are_exact :
  forall n, 0 <= n < 2 ^ 50 ->
    int_times n lit_02 = n / 5 /\ int_times n lit_04 = 2 * n / 5 /\ int_times n lit_08 = 4 * n / 5.
Proof. exact fifths_main. Qed.
Print Assumptions fifths_are_exact.

(** C99: the ratio 0.7 takes one row less exactly at the sizes [one_short]. *)
Theorem seven_tenths_one_short :
  forall n, 0 <= n < 2 ^ 50 ->
    (int_times n lit_07 = 7 * n / 10 <-> ~ one_short n)
    /\ (int_times n lit_07 = 7 * n / 10 - 1 <-> one_short n).
Proof. exact seven_iff. Qed.
Print Assumptions seven_tenths_one_short.

(** C99: "seven tenths of the rows, rounded down" is false of the ratio 0.7. *)
Theorem seven_tenths_refuted :
  exists n : Z, 0 <= n < 2 ^ 50 /\ int_times n lit_07 <> 7 * n / 10 /\ 7 * n mod 10 = 0.
Proof. exact seven_tenths_bad. Qed.
Print Assumptions seven_tenths_refuted.

(** C99: the sizes of the parts of the four logs: MovieLens keeps a fifth and starts with two
    fifths of it, Steam starts with four fifths, Amazon with seven tenths or one row less. *)
Theorem parts_of_the_logs :
  forall (sort_time : list raw -> list raw) (sort_days : list trow -> list trow) (data : list raw) (hm : option Z),
    sorts_by raw_time sort_time -> sorts_by tb_day sort_days ->
    let n := Z.of_nat (length data) in n < 2 ^ 50 ->
    let cuts t ratio rows :=
      exists initial stream left,
        prepare_data_for_experiment tb_index tb_day sort_days t (int_times (Z.of_nat (length t)) ratio) hm = Ok (initial, stream, left)
        /\ Z.of_nat (length initial) = rows /\ Z.of_nat (length (concat (map snd stream))) = Z.of_nat (length t) - rows in
    (let t := prepare_ml20m sort_time (Z.to_nat (int_times n lit_02)) data in
     Z.of_nat (length t) = n / 5 /\ cuts t lit_04 (2 * (n / 5) / 5))
    /\ (let t := prepare_encoded sort_time data in
        Z.of_nat (length t) = n /\ cuts t lit_08 (4 * n / 5)
        /\ (~ one_short n -> cuts t lit_07 (7 * n / 10)) /\ (one_short n -> cuts t lit_07 (7 * n / 10 - 1))).
Proof. exact split_main. Qed.
Print Assumptions parts_of_the_logs.

(** Cases: 90 rows give 62 instead of 63, 80 rows give 56; 20 000 263 interactions of
    MovieLens give 4 000 052 and 1 600 020. *)
Example case_90 : one_short 90 /\ int_times 90 lit_07 = 62 /\ 7 * 90 / 10 = 63.
Proof. split; [exact one_short_90|split; vm_compute; reflexivity]. Qed.
Example case_80 : ~ one_short 81 /\ int_times 80 lit_07 = 56 /\ int_times 81 lit_07 = 56.
Proof. split; [apply not_one_short_odd; vm_compute; discriminate|split; vm_compute; reflexivity]. Qed.
Example case_ml20m : int_times 20000263 lit_02 = 4000052 /\ int_times 4000052 lit_04 = 1600020.
Proof. split; vm_compute; reflexivity. Qed.
