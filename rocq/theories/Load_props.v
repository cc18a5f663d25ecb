(** Property C94: the setup script. *)
From Coq Require Import List Bool String.
From Verif Require Import Prelude Load_model Load_spec Load_main Load_fresh.
Import ListNotations.

(** C94.  In a working directory without [data], if all downloads and parsers succeed,
    load_data.py finishes; then [data] holds exactly the four datasets under the names the
    configurations use, no temporary file is left, the directories for results and
    configurations exist, and nothing else is changed. *)
Theorem setup_of_fresh_directory :
  forall (C : Type) (w : world C) (d : @disk C) (zip : C) (files : list (string * C)) (raw_b raw_g raw_s amz_b amz_g steam : C),
  (forall p, within ["data"%string] p -> look d p = None) ->
  (forall p t, p <> [] -> within p t -> In t wanted_dirs -> forall c, look d p <> Some (File c)) ->
  w_fetch w "ml-20m.zip" = Ok zip -> w_unzip w zip = Ok (map (fun f => (["ml-20m"%string], fst f, snd f)) files) ->
  files <> [] -> NoDup (map fst files) ->
  w_fetch w "amz_b" = Ok raw_b -> w_amazon w raw_b = Ok amz_b -> w_fetch w "amz_g" = Ok raw_g -> w_amazon w raw_g = Ok amz_g ->
  w_fetch w "steam" = Ok raw_s -> w_steam w raw_s = Ok steam ->
  exists d', run w d = (d', None) /\
    forall p, p <> [] ->
      (within ["data"%string] p -> holds (data_tree files amz_b amz_g steam) p (look d' p)) /\
      (~ within ["data"%string] p -> (exists t, In t wanted_dirs /\ within p t) -> look d' p = Some Dir) /\
      (~ within ["data"%string] p -> ~ (exists t, In t wanted_dirs /\ within p t) -> look d' p = look d p).
Proof. exact @fresh_main. Qed.
Print Assumptions setup_of_fresh_directory.

(** C94.  If data/ml_20m exists and is not empty, load_data.py does not finish: it stops with an
    error of the operating system (if the MovieLens archive can be downloaded and read), and has
    touched nothing but data, data/temp.zip and data/ml-20m. *)
Theorem setup_stops_at_existing_movielens :
  forall (C : Type) (w : world C) (d : @disk C),
  (exists f, within ["data"; "ml_20m"]%string f /\ f <> ["data"; "ml_20m"]%string /\ look d f <> None) -> look d ["data"; "ml_20m"]%string <> None ->
  exists e, snd (run w d) = Some e /\
    (forall zip entries, w_fetch w "ml-20m.zip" = Ok zip -> w_unzip w zip = Ok entries ->
       e = OSError /\
       (Forall (fun x => within ["ml-20m"%string] (fst (fst x))) entries ->
        forall p, p <> ["data"%string] -> p <> ["data"; "temp.zip"]%string -> ~ within ["data"; "ml-20m"]%string p ->
          look (fst (run w d)) p = look d p)).
Proof. exact @stops_main. Qed.
Print Assumptions setup_stops_at_existing_movielens.

(** C94.  Once the MovieLens part of a run has finished, no later run finishes, whatever the runs
    in between and however the downloads go: an interrupted setup cannot be completed by running
    the script again. *)
Theorem setup_cannot_be_resumed :
  forall (C : Type) (first w : world C) (ws : list (world C)) (d : @disk C),
  archive first -> snd (run_ml20m first d) = None ->
  snd (run w (fold_left (fun d w => fst (run w d)) ws (fst (run first d)))) <> None.
Proof. exact @resume_main. Qed.
Print Assumptions setup_cannot_be_resumed.

(** A world where everything works, and one where the Steam server is down. *)
Definition w_good : world string := mkWorld _ (fun n => Ok n)
  (fun _ => Ok [(["ml-20m"], "ratings.csv", "ratings"); (["ml-20m"], "README.txt", "about")]%string) (fun c => Ok c) (fun c => Ok c).
Definition w_down : world string := mkWorld _ (fun n => if String.eqb n "steam" then Err RuntimeError else Ok n) (w_unzip w_good) (fun c => Ok c) (fun c => Ok c).
Definition d_start : @disk string := [(["README.md"], File "read"); (["configs"], Dir); (["configs"; "steam"], Dir); (["configs"; "steam"; "config.py"], File "conf")]%string.

Example setup_case : let d := fst (run w_good d_start) in snd (run w_good d_start) = None /\
  look d ["data"; "ml_20m"; "ratings.csv"]%string = Some (File "ratings"%string) /\
  look d ["data"; "amz_g"; "amz_g.gz"]%string = Some (File "amz_g"%string) /\
  look d ["data"; "temp.zip"]%string = None /\ look d ["data"; "ml-20m"; "ratings.csv"]%string = None /\
  look d ["results"; "steam"; "graphics"]%string = Some Dir /\ look d ["configs"; "steam"; "config.py"]%string = Some (File "conf"%string).
Proof. vm_compute. repeat split. Qed.
Example setup_hypotheses_case : (forall p, within ["data"%string] p -> look d_start p = None) /\
  (forall p t, p <> [] -> within p t -> In t wanted_dirs -> forall c, look d_start p <> Some (File c)).
Proof.
  split.
  - intros p [r ->]. reflexivity.
  - intros p t N [r ->] I c. cbn in I. destruct p as [|x p]; [congruence|]. cbn in I.
    assert (X : x = "configs"%string \/ x = "results"%string) by (repeat (destruct I as [I|I]; [injection I; auto|]); contradiction).
    destruct X; subst x; destruct p as [|y [|z p]]; try discriminate;
      try (repeat (destruct I as [I|I]; [try discriminate I; injection I; intros; subst; try discriminate|]); contradiction).
Qed.
Example interrupted_case : let d := fst (run w_down d_start) in
  snd (run w_down d_start) = Some (Raised RuntimeError) /\ look d ["data"; "temp_amz_b"]%string = None /\ look d ["results"%string] = None /\
  snd (run_ml20m w_down d_start) = None /\ snd (run w_good d) = Some OSError /\ look (fst (run w_good d)) ["data"; "ml-20m"; "ratings.csv"]%string <> None.
Proof. vm_compute. repeat split. discriminate. Qed.
Example archive_case : archive w_down.
Proof. intros zip entries _ E. injection E as <-. exists [], "ratings.csv"%string, "ratings"%string. now left. Qed.
