(** Property C98: which downloaded lines the loaders accept, and what they make of them. *)
From Coq Require Import ZArith List String.
From Verif Require Import Prelude Parse_model Parse_spec Parse_main.
Import ListNotations.
Open Scope Z_scope.

(** C98.  A line of an Amazon file is accepted exactly when every object in it, at any depth, has
    all fields; otherwise KeyError. *)
Theorem amazon_line_accepted_exactly :
  forall (fields : list string) (j : json),
  match loads fields j with
  | Ok _ => all_objects_have fields j
  | Err e => e = KeyError /\ ~ all_objects_have fields j
  end.
Proof. exact loads_main. Qed.
Print Assumptions amazon_line_accepted_exactly.

(** C98.  The row of an accepted record has the value of every field in order, that of the last
    occurrence of a repeated key. *)
Theorem amazon_row_of_fields :
  forall (fields : list string) (l : list (string * json)) (v : value), loads fields (JObj l) = Ok v ->
  exists vs, v = VTuple vs /\ Forall2 (fun key x => exists j, binding l key j /\ loads fields j = Ok x) fields vs.
Proof. exact object_main. Qed.
Print Assumptions amazon_row_of_fields.

(** C98.  A review with reviewer, product and time becomes the row of these three, unless an
    object below it, in whatever key, lacks one of the three fields: then KeyError. *)
Theorem amazon_review :
  forall (l : list (string * json)) (u i : string) (t : Z),
  binding l "reviewerID" (JStr u) -> binding l "asin" (JStr i) -> binding l "unixReviewTime" (JNum t) ->
  ((forall key k, In (key, k) l -> all_objects_have amazon_fields k) -> loads amazon_fields (JObj l) = Ok (VTuple [VStr u; VStr i; VNum t])) /\
  (forall key k, In (key, k) l -> ~ all_objects_have amazon_fields k -> loads amazon_fields (JObj l) = Err KeyError).
Proof. exact amazon_main. Qed.
Print Assumptions amazon_review.

(** C98.  A line of the Steam file is accepted exactly when it is a dict with all fields, and
    what is inside its values does not matter; otherwise KeyError, or TypeError if it is no dict. *)
Theorem steam_line_accepted_exactly :
  forall (fields : list string) (j : json),
  match steam_line fields (literal j) with
  | Ok row => exists l, j = JObj l /\ has_keys fields l /\ Forall2 (fun key v => exists k, binding l key k /\ v = literal k) fields row
  | Err e => (e = TypeError /\ forall l, j <> JObj l) \/ (e = KeyError /\ exists l, j = JObj l /\ ~ has_keys fields l)
  end.
Proof. exact steam_line_main. Qed.
Print Assumptions steam_line_accepted_exactly.

(** C98.  A file gives one row for every line in order, or the exception of its first line that
    has none: one bad line leaves no table. *)
Theorem files_line_by_line :
  forall (read : string -> res json) (fields lines : list string),
  line_by_line (fun s => do j <- read s; loads fields j) lines (parse_lines_amz read fields lines) /\
  line_by_line (fun s => do j <- read s; steam_line fields (literal j)) lines (parse_lines_steam read fields lines).
Proof. exact (fun read fields lines => conj (amazon_file_main read fields lines) (mapM_lines _ lines)). Qed.
Print Assumptions files_line_by_line.

(** C98.  On records without objects in their values the two parsers agree. *)
Theorem parsers_agree_on_flat_records :
  forall (fields : list string) (l : list (string * json)),
  (forall key k o, In (key, k) l -> ~ inside (JObj o) k) ->
  loads fields (JObj l) = (do row <- steam_line fields (literal (JObj l)); Ok (VTuple row)).
Proof. exact agree_main. Qed.
Print Assumptions parsers_agree_on_flat_records.

(** A review with a list and a repeated key; a file whose second line lacks a field. *)
Definition review : list (string * json) :=
  [("asin", JStr "B0"); ("reviewerID", JStr "A1"); ("helpful", JArr [JNum 0; JNum 3]); ("unixReviewTime", JNum 5); ("asin", JStr "B7")]%string.
Definition demo_read (s : string) : res json :=
  if String.eqb s "review" then Ok (JObj review) else if String.eqb s "short" then Ok (JObj (skipn 4 review)) else Err ValueError.
Example amazon_review_example :
  binding review "reviewerID" (JStr "A1") /\ binding review "asin" (JStr "B7") /\ binding review "unixReviewTime" (JNum 5) /\
  (forall key k, In (key, k) review -> all_objects_have amazon_fields k) /\
  loads amazon_fields (JObj review) = Ok (VTuple [VStr "A1"; VStr "B7"; VNum 5]) /\
  parse_lines_amz demo_read amazon_fields ["review"; "review"]%string = Ok [VTuple [VStr "A1"; VStr "B7"; VNum 5]; VTuple [VStr "A1"; VStr "B7"; VNum 5]] /\
  parse_lines_amz demo_read amazon_fields ["review"; "short"; "text"]%string = Err KeyError /\
  parse_lines_steam demo_read amazon_fields ["review"; "text"; "short"]%string = Err ValueError.
Proof.
  split; [apply getkey_binding; reflexivity|]. split; [apply getkey_binding; reflexivity|]. split; [apply getkey_binding; reflexivity|].
  split; [|repeat split; reflexivity].
  intros key k I o Io. cbn in I. repeat (destruct I as [I|I]; [injection I as _ <-; inversion Io as [|x l J K|]; subst;
    cbn in J; repeat (destruct J as [<-|J]; [inversion K|]); destruct J|]). destruct I.
Qed.

(** C98, the bad side: a review with all fields and an object in another key raises KeyError,
    while the parser of Steam accepts it. *)
Theorem review_with_fields_accepted_refuted :
  exists l row, has_keys amazon_fields l /\ loads amazon_fields (JObj l) = Err KeyError /\
    steam_line amazon_fields (literal (JObj l)) = Ok row.
Proof.
  exists (("style", JObj [("Color:", JStr "red")]) :: review)%string, [VStr "A1"; VStr "B7"; VNum 5]%string.
  split; [|split; reflexivity]. intros key I. cbn in *. intuition.
Qed.
Print Assumptions review_with_fields_accepted_refuted.
