(** Concrete results, directories and runs. *)
From Coq Require Import ZArith QArith List Bool String Ascii Lia Sorting.Permutation.
From Verif Require Import Prelude DataPrep_model Tensor_model Dynamic_model Dynamic_spec Dynamic_props
  Report_model Report_spec Report_str Report_graph Report_names Report_main.
Import ListNotations.
Local Open Scope string_scope.
Local Open Scope list_scope.

(** The digits of the only numbers that occur. *)
Definition w_digits (z : Z) : string := if (z =? 5)%Z then "5" else "20".

(** A result of [n] steps. *)
Definition w_json (n : nat) (v : Q) : json :=
  [("calculation_time", repeat 1%Q (n + 1)); ("hr", repeat v n); ("mrr", repeat v n); ("wji", repeat v (n - 1))].
Lemma w_steps : forall n v, result_of_steps n (w_json n v).
Proof. intros n v. split; [|split]; (eexists; split; [reflexivity|apply repeat_length]). Qed.

(** A run of the experiment loop. *)
Definition w_run : res (dynamics Q Q) :=
  dynamical_experiment 0%Q Qminus sum_squares (fun a b => Qred (a / b)) (-1)%Q (fun n => inject_Z (Z.of_nat n)) toy grow_2d
    [10; 11]%Z false 2 0%nat [mkRow 10 20 0 1] [c1; c2; c3].
Lemma w_from : exists j, from_experiment 2 j.
Proof.
  destruct w_run as [dyn|e] eqn:E; [|vm_compute in E; discriminate].
  exists (json_of dyn), nat, (list row), Q. do 15 eexists. split; [exact E|]. split; reflexivity.
Qed.

Definition w_dir : string := "results/steam/metric_dynamics".
Definition w_file (dir name : string) (j : json) : entry := mkEntry (in_dir dir name) true (Ok j).
(** A directory after a run: the study of both models among other files. *)
Definition w_names : list string :=
  ["TIRecA_std_1e-08_int_False.json"; "SVD.json"; "TIRec.json"; "PSIRec_std_0_int_True.json"; "data_dynamics.json";
   "TIRecA.json"; "TIRecA_std_1e-08_int_True.json"; "PSIRec.json"].
Definition w_listing : list entry := map (fun n => w_file w_dir n (w_json 3 (1 # 2))) w_names.
Definition w_tensor : list (string * json) :=
  map (fun l => (l, w_json 3 (1 # 2))) ["TIRecA(1e-08;B)"; "TIRec"; "TIRecA"; "TIRecA(1e-08;0)"].
Definition w_tensor_files : list entry :=
  map (fun n => w_file w_dir n (w_json 3 (1 # 2)))
    ["TIRecA_std_1e-08_int_False.json"; "TIRec.json"; "TIRecA.json"; "TIRecA_std_1e-08_int_True.json"].

Lemma numeral_dec : forall s, forallb (fun c => existsb (Ascii.eqb c) (list_ascii_of_string "0123456789.+-einfa")) (list_ascii_of_string s) = true -> numeral s.
Proof.
  intros s H c I. rewrite forallb_forall in H. specialize (H c I). apply existsb_exists in H. destruct H as (d & Id & E).
  apply Ascii.eqb_eq in E. now subst.
Qed.

Lemma w_labelled : labelled "TIRec" w_dir w_tensor_files w_tensor.
Proof.
  unfold labelled, w_tensor_files, w_tensor. cbn [map].
  repeat (constructor; [eexists; split; [reflexivity|]; split; [|reflexivity]|]); [| | | |constructor].
  - apply (sn_tirec_setting "1e-08" false). now apply numeral_dec.
  - constructor.
  - constructor.
  - apply (sn_tirec_setting "1e-08" true). now apply numeral_dec.
Qed.


(** The listing of files with given names. *)
Lemma w_listed_gen : forall target dir names (j : string -> json), NoDup names -> (forall n, In n names -> free "/" n) ->
  listed target dir (map (fun n => w_file dir n (j n)) names) (map (fun n => w_file dir n (j n)) (filter (contains target) names)).
Proof.
  intros target dir names j N F. split; [|split].
  - rewrite map_map. cbn. clear F. induction N as [|x l N1 N2 IH]; cbn; constructor; [|exact IH].
    intros I. apply in_map_iff in I. destruct I as (y & E & Iy). apply in_dir_inj in E. now subst.
  - intros e I. apply in_map_iff in I. destruct I as (n & <- & I). exists n. split; [now apply F|reflexivity].
  - exists (fun e => contains target (last (split "/" (e_path e)) "")). split.
    + clear N. induction names as [|n names IH]; [reflexivity|]. cbn [map filter]. cbn [w_file e_path].
      rewrite file_name by (apply F; now left). rewrite <- IH by (intros; apply F; now right).
      destruct (contains target n); reflexivity.
    + intros e I. apply in_map_iff in I. destruct I as (n & <- & I). cbn [w_file e_path e_is_file].
      rewrite file_name by now apply F. rewrite contains_iff. split.
      * intros O. split; [reflexivity|]. exists n. split; [now apply F|]. split; [reflexivity|exact O].
      * intros (_ & n' & _ & E & O). apply in_dir_inj in E. now subst.
Qed.

Lemma w_names_ok : NoDup w_names /\ forall n, In n w_names -> free "/" n.
Proof.
  split.
  - repeat (constructor; [intros H; cbn in H; repeat (destruct H as [H|H]; [discriminate|]); exact H|]). constructor.
  - intros n I. cbn in I. repeat (destruct I as [<-|I]; [not_in|]). destruct I.
Qed.

Lemma w_listed : listed "TIRec" w_dir w_listing w_tensor_files.
Proof. apply (w_listed_gen "TIRec" w_dir w_names (fun _ => w_json 3 (1 # 2))); apply w_names_ok. Qed.

Lemma w_not_in_dir : ~ occurs "TIRec" w_dir.
Proof. intros H. apply contains_iff in H. discriminate. Qed.

(** What the script draws there. *)
Definition w_open (path : string) : res json := Ok (w_json 3 (1 # 2)).
Definition w_script : saved :=
  prepare_graphs w_digits w_open w_listing ([], None) "g" "a" w_dir "steam" ["SVD"; "PSIRec"; "TIRecA"] 5 [20%nat].

(** The same directory with a name that contains the model. *)
Definition w_dir_bad : string := "runs_TIRec/steam/metric_dynamics".
Definition w_listing_bad : list entry := map (fun n => w_file w_dir_bad n (w_json 3 (1 # 2))) ["TIRec.json"; "SVD.json"].

(** A backup copy beside the file. *)
Definition w_backup : list entry :=
  [w_file w_dir "TIRecA_std_0_int_True.json" (w_json 3 (1 # 2)); w_file w_dir "TIRecA_std_0_int_True.json.bak" (w_json 3 (1 # 4))].

(** Tables: two datasets, a missing file, and a file without the stability series. *)
Definition w_results (data model : string) : res json :=
  if String.eqb model "SVD" then Ok (w_json 3 (1 # 2))
  else if String.eqb model "TDRec" then Ok [("hr", [1%Q]); ("mrr", [1%Q])]
  else Err KeyError.

(** A run in which the search fails: the values are the numbers of the run. *)
Definition w_search (h : string) : res nat := if String.eqb h "svd" then Err RuntimeError else Ok 2%nat.
(** An experiment that reports the hyperparameters it read. *)
Definition w_experiment (m : string) (csv : string -> option nat) : res (option nat) :=
  if String.eqb m "TDRec" then Err LinAlgError
  else Ok (csv (if String.eqb m "SVD" || String.eqb m "PSIRec" then "svd" else "tdrec")).
Definition w_study (m : string) (o : string * bool) (csv : string -> option nat) : res (option nat) :=
  if String.eqb (fst o) "1e-05" then Err ValueError else w_experiment m csv.
(** Everything in the files before is from run 1. *)
Definition w_before : @store nat (option nat) := mkStore (fun _ => Some 1%nat) (fun _ => Some (Some 1%nat)).
