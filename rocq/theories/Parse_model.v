(** Model of the parsers of the downloaded files: load_data.py [parse_lines_amz] and
    [parse_lines_steam], with the table of their rows.  Text is read by external functions that
    return its abstract syntax; numbers are integers, Python literals are those JSON has. *)
From Coq Require Import ZArith List Bool String.
From Verif Require Import Prelude.
Import ListNotations.
Open Scope Z_scope.

(** JSON values; an object is the list of its pairs in the order of the text. *)
Inductive json :=
| JNull | JBool (b : bool) | JNum (n : Z) | JStr (s : string)
| JArr (l : list json) | JObj (l : list (string * json)).

(** Python values of the parsed lines. *)
Inductive value :=
| VNone | VBool (b : bool) | VNum (n : Z) | VStr (s : string)
| VList (l : list value) | VTuple (l : list value) | VDict (l : list (string * value)).

(** [dct[key]]; the last of equal keys of a text is kept. *)
Fixpoint getkey {A} (l : list (string * A)) (key : string) : res A :=
  match l with
  | [] => Err KeyError
  | (k, v) :: l' =>
    match getkey l' key with
    | Ok w => Ok w
    | Err e => if String.eqb k key then Ok v else Err e
    end
  end.

(** load_data.py:45: the hook [lambda dct: tuple(dct[key] for key in fields)]. *)
Definition hook (fields : list string) (dct : list (string * value)) : res value :=
  do vs <- mapM (getkey dct) fields; Ok (VTuple vs).

(** load_data.py:45: [json.loads(line, object_hook=...)] of a line read as [j]; the hook is called
    for every object, those inside first. *)
Fixpoint loads (fields : list string) (j : json) : res value :=
  match j with
  | JNull => Ok VNone
  | JBool b => Ok (VBool b)
  | JNum n => Ok (VNum n)
  | JStr s => Ok (VStr s)
  | JArr l =>
    do vs <- (fix go (l : list json) : res (list value) :=
      match l with
      | [] => Ok []
      | x :: l' => do v <- loads fields x; do vs <- go l'; Ok (v :: vs)
      end) l;
    Ok (VList vs)
  | JObj l =>
    do dct <- (fix go (l : list (string * json)) : res (list (string * value)) :=
      match l with
      | [] => Ok []
      | (k, x) :: l' => do v <- loads fields x; do vs <- go l'; Ok ((k, v) :: vs)
      end) l;
    hook fields dct
  end.

(** [literal_eval] of a line read as [j]: the value itself. *)
Fixpoint literal (j : json) : value :=
  match j with
  | JNull => VNone
  | JBool b => VBool b
  | JNum n => VNum n
  | JStr s => VStr s
  | JArr l => VList (map literal l)
  | JObj l => VDict (map (fun p => (fst p, literal (snd p))) l)
  end.

Section Files.
  (** External: reading a line as JSON or as a Python literal; it may raise. *)
  Variable read : string -> res json.

  (** load_data.py:42-45 [parse_lines_amz], consumed by [from_records] (load_data.py:64). *)
  Definition parse_lines_amz (fields : list string) (lines : list string) : res (list value) :=
    mapM (fun line => do j <- read line; loads fields j) lines.

  (** load_data.py:74-75: a line of [parse_lines_steam]; only a dict has items by name. *)
  Definition steam_line (fields : list string) (v : value) : res (list value) :=
    match v with
    | VDict dct => mapM (getkey dct) fields
    | _ => Err TypeError
    end.

  (** load_data.py:71-75 [parse_lines_steam], consumed by [from_records] (load_data.py:110). *)
  Definition parse_lines_steam (fields : list string) (lines : list string) : res (list (list value)) :=
    mapM (fun line => do j <- read line; steam_line fields (literal j)) lines.
End Files.

(** load_data.py:63, 109. *)
Definition amazon_fields : list string := ["reviewerID"; "asin"; "unixReviewTime"]%string.
Definition steam_fields : list string := ["username"; "product_id"; "date"]%string.
