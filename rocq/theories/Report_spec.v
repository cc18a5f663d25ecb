(** Vocabulary for figures, tables and the run script. *)
From Coq Require Import ZArith QArith List Bool String Ascii.
From Verif Require Import Prelude DataPrep_model Tensor_model Dynamic_model Dynamic_spec Report_model.
Import ListNotations.
Local Open Scope string_scope.
Local Open Scope list_scope.

(** [t] stands somewhere in [s]. *)
Definition occurs (t s : string) : Prop := exists a b, s = (a ++ t ++ b)%string.

(** [c] does not occur in [s]. *)
Definition free (c : ascii) (s : string) : Prop := ~ In c (list_ascii_of_string s).

(** A number as Python prints it consists of these characters. *)
Definition numeral (s : string) : Prop :=
  forall c, In c (list_ascii_of_string s) -> In c (list_ascii_of_string "0123456789.+-einfa").

(** The path of a file in a directory. *)
Definition in_dir (dir name : string) : string := (dir ++ "/" ++ name)%string.

(** The file has a series of that name and length. *)
Definition has_series (key : string) (n : nat) (j : json) : Prop :=
  exists l, sget key j = Some l /\ List.length l = n.

(** A result of [n] steps: [n+1] times, [n] values of HR, one comparison less. *)
Definition result_of_steps (n : nat) (j : json) : Prop :=
  has_series "calculation_time" (n + 1) j /\ has_series "hr" n j /\ has_series "wji" (n - 1) j.

(** [j] was saved by an experiment, with any model, of [n] steps. *)
Definition from_experiment (n : nat) (j : json) : Prop :=
  exists (S D A : Type) (zero : A) (sub : A -> A -> A) (norm : mat A -> Q) (div : Q -> Q -> Q) (minus_one : Q) (clock : nat -> Q)
    (m : api S D A) (grow : D -> list DataPrep_model.row -> res D) (test_users : list Z) (chunk_mode : bool) (how_many : Z) (st0 : S) (initial : D)
    (stream : list (list DataPrep_model.row)) (dyn : dynamics Q Q),
  dynamical_experiment zero sub norm div minus_one clock m grow test_users chunk_mode how_many st0 initial stream = Ok dyn /\
  n = n_steps how_many (List.length stream) /\ j = json_of dyn.

(** Curves for given series. *)
Definition as_is (l y : list Q) : Prop := y = l.
Definition totals (l y : list Q) : Prop :=
  List.length y = List.length l /\
  forall t, (t < List.length l)%nat -> exists x, nth_error y t = Some x /\ (x == window_total l 0 (t + 1))%Q.
Definition averages (w : nat) (l y : list Q) : Prop :=
  ((List.length l < w)%nat /\ y = l) \/
  ((w <= List.length l)%nat /\ List.length y = (List.length l - w + 1)%nat /\
   forall i, (i + w <= List.length l)%nat -> exists x, nth_error y i = Some x /\
     (x * inject_Z (Z.of_nat w) == window_total l i w)%Q).

(** The figure has one curve for every result, in the order and with the labels of [results]. *)
Definition draws (key : string) (curve : list Q -> list Q -> Prop) (results : list (string * json)) (f : figure) : Prop :=
  Forall2 (fun r c => fst c = fst r /\ exists l, sget key (snd r) = Some l /\ curve l (snd c)) results (f_curves f).

(** The figures of the experiments: times, running totals of HR, stability, windows of HR. *)
Definition experiment_figures (digits : Z -> string) (dir extra : string) (swl : list nat) (results : list (string * json)) (figs : list figure) : Prop :=
  exists ft fh fs fw, figs = ft :: fh :: fs :: fw /\
    f_path ft = (dir ++ "/" ++ extra ++ "calc_time.pdf")%string /\ draws "calculation_time" as_is results ft /\
    f_path fh = (dir ++ "/" ++ extra ++ "cum_hr.pdf")%string /\ draws "hr" totals results fh /\
    f_path fs = (dir ++ "/" ++ extra ++ "stability.pdf")%string /\ draws "wji" as_is results fs /\
    Forall2 (fun w f => f_path f = (dir ++ "/" ++ extra ++ "sw_" ++ digits (Z.of_nat w) ++ "_hr.pdf")%string /\
                        draws "hr" (averages w) results f) swl fw.

(** The figures of the ablation study. *)
Definition study_figures (digits : Z -> string) (dir extra : string) (results : list (string * json)) (figs : list figure) : Prop :=
  exists fs fh fw, figs = [fs; fh; fw] /\
    f_path fs = (dir ++ "/" ++ extra ++ "cum_stability.pdf")%string /\ draws "wji" totals results fs /\
    f_path fh = (dir ++ "/" ++ extra ++ "cum_hr.pdf")%string /\ draws "hr" totals results fh /\
    f_path fw = (dir ++ "/" ++ extra ++ "sw_" ++ digits (Zpos 20) ++ "_hr.pdf")%string /\ draws "hr" (averages 20) results fw.

(** The label of a result of the ablation study. *)
Definition label_of (model std : string) (integrator : bool) : string :=
  (model ++ "(" ++ std ++ ";" ++ (if integrator then "0" else "B") ++ ")")%string.

(** [name] is a file of the study for [target]; [label] is what its curve should be called. *)
Inductive study_name : string -> string -> string -> Prop :=
| sn_tirec : study_name "TIRec" "TIRec.json" "TIRec"
| sn_tireca : study_name "TIRec" "TIRecA.json" "TIRecA"
| sn_psirec : study_name "PSIRec" "PSIRec.json" "PSIRec"
| sn_tirec_setting : forall std b, numeral std -> study_name "TIRec" (study_file "TIRecA" std b) (label_of "TIRecA" std b)
| sn_psirec_setting : forall std b, numeral std -> study_name "PSIRec" (study_file "PSIRec" std b) (label_of "PSIRec" std b).

(** What the cell of a table must show: the mean, when the file can be read and has all the
    series; else a dash. *)
Definition shows (metrics : list string) (file : res json) (metric : string) (c : option cell) : Prop :=
  (exists j l, file = Ok j /\ (forall m, In m metrics -> exists l', sget m j = Some l') /\ sget metric j = Some l /\
     ((l = [] /\ c = Some Nan) \/
      (l <> [] /\ exists q, c = Some (Mean q) /\ (q * inject_Z (Z.of_nat (List.length l)) == fold_right Qplus 0 l)%Q))) \/
  ((forall j, file = Ok j -> exists m, In m metrics /\ sget m j = None) /\ c = Some Dash).

(** What a script leaves under a file name: its result, or what was there. *)
Definition written {X} (outcome : res X) (before : option X) : option X :=
  match outcome with Ok x => Some x | Err _ => before end.

(** The two targets with the functions that label their files. *)
Inductive study_of : string -> (string -> res string) -> Prop :=
| study_tensor : study_of "TIRec" map_tensor_name
| study_matrix : study_of "PSIRec" map_matrix_name.

(** [files] are the files of the directory [dir] with [target] in their name, in the order of
    the listing; the names have no slash and no two entries have the same path. *)
Definition listed (target dir : string) (listing files : list entry) : Prop :=
  NoDup (map e_path listing) /\
  (forall e, In e listing -> exists name, free "/" name /\ e_path e = in_dir dir name) /\
  exists keep, files = filter keep listing /\
    forall e, In e listing -> (keep e = true <-> e_is_file e = true /\ exists name, free "/" name /\ e_path e = in_dir dir name /\ occurs target name).

(** The results of the files, each under the label of its name. *)
Definition labelled (target dir : string) (files : list entry) (results : list (string * json)) : Prop :=
  Forall2 (fun e r => exists name, e_path e = in_dir dir name /\ study_name target name (fst r) /\ e_json e = Ok (snd r)) files results.
