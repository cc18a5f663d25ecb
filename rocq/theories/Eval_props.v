(** Properties C12-C14: metrics. *)
From Coq Require Import ZArith QArith List Bool Lia Permutation.
From Verif Require Import Prelude Eval_model Eval_spec.
From Verif Require Eval_proofs Eval_main.
Import ListNotations.
Open Scope Q_scope.

(** C12.  Surplus rows are ignored, missing ones are read out of bounds. *)
Theorem hr_is_hit_fraction : forall (rec : list (list Z)) (test : list Z),
  ((length rec < length test)%nat -> hr rec test = Err OutOfBounds)
  /\ (test = [] -> hr rec test = Err ZeroDivisionError)
  /\ ((length test <= length rec)%nat -> test <> [] -> exists q, hr rec test = Ok q
       /\ q == inject_Z (Z.of_nat (hits rec test)) / inject_Z (Z.of_nat (length test))
       /\ 0 <= q <= 1).
Proof. exact Eval_proofs.hr_exact_main. Qed.
Print Assumptions hr_is_hit_fraction.

Theorem hr_invariant_under_user_order :
  forall (rec : list (list Z)) test rec' test' q,
  length rec = length test -> length rec' = length test' ->
  Permutation (combine rec test) (combine rec' test') ->
  hr rec test = Ok q -> exists q', hr rec' test' = Ok q' /\ q' == q.
Proof. exact Eval_proofs.hr_users_perm_main. Qed.
Print Assumptions hr_invariant_under_user_order.

(** Row order is irrelevant and extra recommendations never hurt ([incl] both
    ways is equality of the sets of recommended items). *)
Theorem hr_monotone_in_rows : forall (rec rec' : list (list Z)) test q q',
  length rec = length test ->
  Forall2 (fun r r' => incl r r') rec rec' ->
  hr rec test = Ok q -> hr rec' test = Ok q' -> q <= q'.
Proof. exact Eval_proofs.hr_grow_main. Qed.
Print Assumptions hr_monotone_in_rows.

Example hr_example :
  hr [[3; 5]; [5; 4]; [1; 2]]%Z [5; 9; 1]%Z = Ok (2 / 3)
  /\ hits [[3; 5]; [5; 4]; [1; 2]]%Z [5; 9; 1]%Z = 2%nat.
Proof. split; reflexivity. Qed.

(** C13 *)
Theorem mrr_is_mean_reciprocal_rank : forall (rec : list (list Z)) (test : list Z),
  ((length rec < length test)%nat -> mrr rec test = Err OutOfBounds)
  /\ (test = [] -> mrr rec test = Err ZeroDivisionError)
  /\ ((length test <= length rec)%nat -> test <> [] ->
      exists q rrs, mrr rec test = Ok q
        /\ Forall2 (fun rt r => RR (fst rt) (snd rt) r) (combine rec test) rrs
        /\ q == Qsum rrs / inject_Z (Z.of_nat (length test))).
Proof. exact Eval_proofs.mrr_is_mean_main. Qed.
Print Assumptions mrr_is_mean_reciprocal_rank.

Theorem mrr_between_hr_bounds : forall (rec : list (list Z)) test topn m h,
  length rec = length test -> (1 <= topn)%nat ->
  Forall (fun r => length r = topn) rec ->
  mrr rec test = Ok m -> hr rec test = Ok h ->
  h / inject_Z (Z.of_nat topn) <= m /\ m <= h /\ h <= 1.
Proof. exact Eval_proofs.mrr_sandwich_main. Qed.
Print Assumptions mrr_between_hr_bounds.

Example mrr_example :
  exists m h, mrr [[3; 5]; [5; 4]; [1; 1]]%Z [5; 9; 1]%Z = Ok m /\ m == 1 # 2
    /\ hr [[3; 5]; [5; 4]; [1; 1]]%Z [5; 9; 1]%Z = Ok h /\ h == 2 # 3.
Proof. do 2 eexists. split; [reflexivity|]. split; [reflexivity|]. split; reflexivity. Qed.

(** C14 *)
Theorem wji_symmetric : forall (arr1 arr2 : list (list Z)) topn N q,
  length arr1 = length arr2 ->
  wji_sim arr1 arr2 topn N = Ok q ->
  exists q', wji_sim arr2 arr1 topn N = Ok q' /\ q' == q.
Proof. exact Eval_main.wji_sim_symmetric_main. Qed.
Print Assumptions wji_symmetric.

Theorem wji_in_unit_interval : forall (arr1 arr2 : list (list Z)) topn N,
  length arr1 = length arr2 -> arr1 <> [] -> (1 <= topn)%nat ->
  Forall (fun r => length r = topn /\ forall x, In x r -> (0 <= x < Z.of_nat N)%Z) arr1 ->
  Forall (fun r => length r = topn /\ forall x, In x r -> (0 <= x < Z.of_nat N)%Z) arr2 ->
  exists q, wji_sim arr1 arr2 topn N = Ok q /\ 0 <= q <= 1 /\ (arr1 = arr2 -> q == 1).
Proof. exact Eval_main.wji_sim_range_main. Qed.
Print Assumptions wji_in_unit_interval.

Theorem wji_defined_iff : forall (arr1 arr2 : list (list Z)) topn N,
  length arr1 = length arr2 ->
  Forall (fun r => length r = topn /\ Forall (fun x => (0 <= x)%Z) r) arr1 ->
  Forall (fun r => length r = topn /\ Forall (fun x => (0 <= x)%Z) r) arr2 ->
  ((exists q, wji_sim arr1 arr2 topn N = Ok q)
   <-> arr1 <> [] /\ (1 <= topn)%nat
       /\ (forall r x, In r (arr1 ++ arr2) -> In x r -> (x < Z.of_nat N)%Z)).
Proof. exact Eval_main.wji_sim_defined_iff_main. Qed.
Print Assumptions wji_defined_iff.

Theorem wji_user_extremes : forall N topn (r1 r2 : list Z),
  (1 <= topn)%nat -> length r1 = topn -> length r2 = topn ->
  (forall x, In x r1 \/ In x r2 -> (0 <= x < Z.of_nat N)%Z) ->
  exists q, wji_user N topn r1 r2 = Ok q /\ 0 <= q <= 1
    /\ (q == 0 <-> forall x, In x r1 -> ~ In x r2)
    /\ (NoDup r1 -> NoDup r2 -> (q == 1 <-> r1 = r2)).
Proof. exact Eval_main.wji_user_extremes_main. Qed.
Print Assumptions wji_user_extremes.

(** Rows (2,0) and (0,3) over 4 items: min sum 1/2, max sum 1 + 1 + 1/2. *)
Example wji_example :
  exists q, wji_sim [[2; 0]]%Z [[0; 3]]%Z 2 4 = Ok q /\ q == 1 # 5.
Proof. eexists. split; [reflexivity|]. reflexivity. Qed.

Example wji_out_of_catalogue : wji_sim [[2; 0]]%Z [[0; 4]]%Z 2 4 = Err OutOfBounds.
Proof. reflexivity. Qed.
