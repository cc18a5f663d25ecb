(** Model of load_data.py: the directories and files it makes.  The contents of files, the
    downloads and the parsers are arguments; Path objects are lists of names below the working
    directory; permissions, links and a full disk are left out. *)
From Coq Require Import List Bool String.
From Verif Require Import Prelude.
Import ListNotations.

Definition path : Type := list string.
Inductive node (C : Type) : Type := Dir | File (c : C).
Arguments Dir {C}. Arguments File {C} c.

(** What stops the script: an error of the operating system or an exception of a download or a
    parser. *)
Inductive failure : Type := OSError | Raised (e : exn).

Definition path_eqb (p q : path) : bool := if list_eq_dec string_dec p q then true else false.
(** [below d p]: the rest of the path if [p] is [d] or inside it. *)
Fixpoint below (d p : path) : option path :=
  match d, p with
  | [], _ => Some p
  | x :: d', y :: p' => if String.eqb x y then below d' p' else None
  | _ :: _, [] => None
  end.
Definition inside (d p : path) : bool := match below d p with Some (_ :: _) => true | _ => false end.

Section Disk.
  Context {C : Type}.
  (** Existing directories and files; the working directory itself always exists. *)
  Definition disk : Type := list (path * node C).
  Definition look (d : disk) (p : path) : option (node C) :=
    match p with
    | [] => Some Dir
    | _ => match find (fun x => path_eqb p (fst x)) d with Some x => Some (snd x) | None => None end
    end.
  Definition put (d : disk) (p : path) (n : node C) : disk := (p, n) :: filter (fun x => negb (path_eqb p (fst x))) d.
  Definition remove (d : disk) (p : path) : disk := filter (fun x => negb (path_eqb p (fst x))) d.

  (** A step leaves a disk, and possibly stops the script. *)
  Definition step : Type := disk -> disk * option failure.
  Definition done : step := fun d => (d, None).
  Definition stop (e : failure) : step := fun d => (d, Some e).
  Definition andthen (s t : step) : step := fun d => match s d with (d', None) => t d' | (d', Some e) => (d', Some e) end.
  Definition withres {X} (x : res X) (t : X -> step) : step := match x with Ok a => t a | Err e => stop (Raised e) end.
  Definition foreach {X} (l : list X) (s : X -> step) : step := fold_right (fun x t => andthen (s x) t) done l.

  (** [Path.mkdir(parents=True, exist_ok=True)]: FileExistsError or NotADirectoryError if a file
      is in the way. *)
  Definition mkdir_one (p : path) : step := fun d =>
    match look d p with None => (put d p Dir, None) | Some Dir => (d, None) | Some (File _) => (d, Some OSError) end.
  Fixpoint mkdir_from (made rest : path) : step :=
    match rest with
    | [] => done
    | x :: rest' => andthen (mkdir_one (made ++ [x])) (mkdir_from (made ++ [x]) rest')
    end.
  Definition mkdir (p : path) : step := mkdir_from [] p.

  (** Writing a file: its directory must exist and it must not be a directory itself. *)
  Definition write (p : path) (c : C) : step := fun d =>
    match look d (removelast p), look d p with
    | Some Dir, Some Dir => (d, Some OSError)
    | Some Dir, _ => (put d p (File c), None)
    | _, _ => (d, Some OSError)
    end.
  (** [Path.unlink(missing_ok=True)]. *)
  Definition unlink (p : path) : step := fun d =>
    match look d p with Some Dir => (d, Some OSError) | _ => (remove d p, None) end.
  (** [os.rename] of a directory (POSIX): the target must be missing or an empty directory. *)
  Definition rename (src dst : path) : step := fun d =>
    match look d src with
    | Some Dir =>
      match look d dst with
      | Some (File _) => (d, Some OSError)
      | Some Dir =>
        if existsb (fun x => inside dst (fst x)) d then (d, Some OSError)
        else (map (fun x => match below src (fst x) with Some r => (dst ++ r, snd x) | None => x end) (remove d dst), None)
      | None => (map (fun x => match below src (fst x) with Some r => (dst ++ r, snd x) | None => x end) d, None)
      end
    | Some (File _) => (d, Some OSError) (* not reached: extractall makes a directory *)
    | None => (d, Some OSError)
    end.

  (** External: [urlretrieve] of a source, the entries of a zip archive (directory and name,
      content), the table written for an Amazon or the Steam file. *)
  Variable fetch : string -> res C.
  Variable unzip : C -> res (list (path * string * C)).
  Variable amazon_table steam_csv : C -> res C.

  (** load_data.py:24-39 [load_ml20m]. *)
  Definition load_ml20m : step :=
    andthen (mkdir ["data"%string])
    (withres (fetch "ml-20m.zip") (fun zip =>
     andthen (write ["data"; "temp.zip"]%string zip)
    (withres (unzip zip) (fun entries =>
     andthen (foreach entries (fun x => andthen (mkdir ("data"%string :: fst (fst x))) (write (("data"%string :: fst (fst x)) ++ [snd (fst x)]) (snd x))))
    (andthen (unlink ["data"; "temp.zip"]%string)
    (rename ["data"; "ml-20m"]%string ["data"; "ml_20m"]%string)))))).

  (** load_data.py:47-68 [load_amazon]. *)
  Definition load_amazon (name : string) : step :=
    andthen (mkdir ["data"%string; name])
    (withres (fetch name) (fun raw =>
     andthen (write ["data"%string; ("temp_" ++ name)%string] raw)
    (withres (amazon_table raw) (fun table =>
     andthen (write ["data"%string; name; (name ++ ".gz")%string] table)
    (unlink ["data"%string; ("temp_" ++ name)%string]))))).

  (** load_data.py:99-123 [load_steam]. *)
  Definition load_steam : step :=
    andthen (mkdir ["data"; "steam"]%string)
    (withres (fetch "steam") (fun raw =>
     andthen (write ["data"; "temp_steam"]%string raw)
    (withres (steam_csv raw) (fun table =>
     andthen (write ["data"; "steam"; "steam.csv"]%string table)
    (unlink ["data"; "temp_steam"]%string))))).

  (** load_data.py:125-133 [prepare_extra_dirs]. *)
  Definition data_dirs : list string := ["ml_20m"; "amz_b"; "amz_g"; "steam"]%string.
  Definition target_dirs : list string := ["graphics"; "hyperparams"; "metric_dynamics"; "ablation_study"]%string.
  Definition prepare_extra_dirs : step :=
    andthen (foreach data_dirs (fun data_dir => foreach target_dirs (fun target_dir => mkdir ["results"%string; data_dir; target_dir])))
            (foreach data_dirs (fun data_dir => mkdir ["configs"%string; data_dir])).

  (** load_data.py:135-140 [load_data]. *)
  Definition load_data : step :=
    andthen load_ml20m (andthen (load_amazon "amz_b") (andthen (load_amazon "amz_g") (andthen load_steam prepare_extra_dirs))).
End Disk.
