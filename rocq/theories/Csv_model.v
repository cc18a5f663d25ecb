(** Model of the CSV files between load_data.py and prepare_data.py: how [pd.read_csv] reads the
    columns of user and item names, and how [encode_column] numbers what was read.  [to_csv]
    followed by the tokenizer of [read_csv] keeps the text of a cell (quoting), which is
    assumed; columns read as booleans are left out. *)
From Coq Require Import ZArith List Bool String.
From Verif Require Import Prelude Tables_model.
Import ListNotations.
Open Scope Z_scope.

(** The texts [read_csv] reads as missing (pandas 2.0, default [na_values]). *)
Definition na_values : list string :=
  [""; "#N/A"; "#N/A N/A"; "#NA"; "-1.#IND"; "-1.#QNAN"; "-NaN"; "-nan"; "1.#IND"; "1.#QNAN"; "<NA>";
   "N/A"; "NA"; "NULL"; "NaN"; "None"; "n/a"; "nan"; "null"]%string.
Definition is_na (s : string) : bool := existsb (String.eqb s) na_values.

(** What a cell becomes: NaN, a number or the text itself.  Numbers are coded as integers. *)
Inductive cell := Missing | Number (n : Z) | Text (s : string).
Definition is_missing (c : cell) : bool := match c with Missing => true | _ => false end.
Definition cell_eqb (a b : cell) : bool :=
  match a, b with
  | Missing, Missing => true
  | Number m, Number n => m =? n
  | Text s, Text t => String.eqb s t
  | _, _ => false
  end.

Section Read.
  (** External: the number a text stands for; it may depend on the chunk, since a chunk with
      missing values or fractions is read as doubles. *)
  Variable number : list string -> string -> option Z.

  (** [read_csv] (prepare_data.py:58, 79; the file is read in chunks, [low_memory=True]): the
      type of a column is inferred for every chunk; it is numeric when all its cells are
      numbers or missing. *)
  Definition numeric (chunk : list string) : bool :=
    forallb (fun s => is_na s || match number chunk s with Some _ => true | None => false end) chunk.
  Definition read_cell (chunk : list string) (s : string) : cell :=
    if is_na s then Missing
    else if numeric chunk then match number chunk s with Some n => Number n | None => Text s end
    else Text s.
  Definition read_column (chunks : list (list string)) : list cell :=
    flat_map (fun chunk => map (read_cell chunk) chunk) chunks.

  (** A row of the file: names of user and item, timestamp (load_data.py:66, 117-121); a row
      that was read. *)
  Definition frow : Type := (string * string * Z)%type.
  Definition crow : Type := (cell * cell * Z)%type.
  Definition read_table (chunks : list (list frow)) : list crow :=
    flat_map (fun chunk =>
      combine (combine (map (read_cell (map (fun r => fst (fst r)) chunk)) (map (fun r => fst (fst r)) chunk))
                       (map (read_cell (map (fun r => snd (fst r)) chunk)) (map (fun r => snd (fst r)) chunk)))
              (map snd chunk)) chunks.

  (** External: the categories of a column, its different values without NaN in some order
      (sorted, unless the values do not compare). *)
  Variable cats : list cell -> list cell.

  (** prepare_data.py:31-37 [encode_column]: [pd.Categorical(data[column]).codes], the positions
      in the categories, -1 for NaN. *)
  Fixpoint position (c : cell) (l : list cell) : Z :=
    match l with
    | [] => 0
    | d :: l' => if cell_eqb c d then 0 else 1 + position c l'
    end.
  Definition code (categories : list cell) (c : cell) : Z := if is_missing c then -1 else position c categories.
  Definition codes (column : list cell) : list Z := map (code (cats column)) column.

  (** External: [sort_values(by=TIMESTAMP)] (prepare_data.py:65, 86). *)
  Variable sort_time : list crow -> list crow.

  (** prepare_data.py:56-76 [prepare_amazon] and 77-96 [prepare_steam], from the file on. *)
  Definition prepare_read (chunks : list (list frow)) : list trow :=
    let data := sort_time (read_table chunks) in
    table_of (codes (map (fun r => fst (fst r)) data)) (codes (map (fun r => snd (fst r)) data))
             (map (fun r => (0, 0, snd r)) data).
End Read.
