(** * Csv: the text of the file that routes_to_file writes (network.py 343-351)

    DataFrame.to_csv(sep=";", index=False) hands the header and the rows to Python's csv writer with minimal quoting: a field
    is quoted when it holds the separator, the quote or a character of the end of line (from Python 3.13 on also a carriage
    return: [new]), quotes are doubled inside it, and a row whose only field is empty is written as two quotes.
    Strings are byte strings (UTF-8 keeps the ASCII characters apart); the end of line is the one of Linux. *)
From Coq Require Import String Ascii List Bool.
From Verif Require Import PyBase Graph Mode Route Network.
Import ListNotations.
Local Open Scope string_scope.

Definition quote : ascii := """"%char.
Definition sep : ascii := ";"%char.
Definition lf : ascii := "010"%char.
Definition cr : ascii := "013"%char.
Definition special (new : bool) (c : ascii) : bool :=
  Ascii.eqb c sep || Ascii.eqb c quote || Ascii.eqb c lf || (new && Ascii.eqb c cr).
Fixpoint has_special (new : bool) (s : string) : bool :=
  match s with EmptyString => false | String c s' => special new c || has_special new s' end.
Fixpoint double_quotes (s : string) : string :=
  match s with
  | EmptyString => EmptyString
  | String c s' => if Ascii.eqb c quote then String quote (String quote (double_quotes s')) else String c (double_quotes s')
  end.
Definition quoted (s : string) : string := String quote (double_quotes s ++ String quote "").
Definition csv_field (new : bool) (s : string) : string := if has_special new s then quoted s else s.
Fixpoint csv_fields (new : bool) (l : list string) : string :=
  match l with
  | [] => ""
  | [s] => csv_field new s
  | s :: l' => csv_field new s ++ String sep (csv_fields new l')
  end.
Definition csv_row (new : bool) (l : list string) : string :=
  (match l with [EmptyString] => quoted "" | _ => csv_fields new l end) ++ String lf "".
Fixpoint csv_text (new : bool) (rows : list (list string)) : string :=
  match rows with [] => "" | r :: rows' => csv_row new r ++ csv_text new rows' end.

(** network.py 344-351: the columns, the rows of routes_table, the text of the file *)
Definition routes_header : list string :=
  ["route_id"; "mode"; "nodes_sequence_i"; "nodes_sequence_r"; "stops_sequence_i"; "stops_sequence_r"].
Definition routes_row (w : string * string * string * string * string * string) : list string :=
  let '(a, b, c, d, e, f) := w in [a; b; c; d; e; f].
Definition routes_to_file (new : bool) (nw : network) : string :=
  csv_text new (routes_header :: map routes_row (routes_table nw)).
