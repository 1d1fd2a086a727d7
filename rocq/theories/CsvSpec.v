(** * CsvSpec: a reader of files with separated values, independent of the writer

    A field that starts with a quote goes on to the next single quote, and two quotes in it stand for one; other fields go on
    to the next separator or end of line; blank lines are skipped.  [crlf]: a carriage return outside quotes ends a line too
    (as for Python's own reader). *)
From Coq Require Import String Ascii List Bool.
From Verif Require Import PyBase Mode Route Network SavedSpec.
Import ListNotations.
Local Open Scope string_scope.

Inductive where_ : Type := AtStart | Bare | InQuotes | AfterQuote.
Definition line_end (crlf : bool) (c : ascii) : bool := Ascii.eqb c "010"%char || (crlf && Ascii.eqb c "013"%char).
Fixpoint read_csv (crlf : bool) (st : where_) (cur : string) (row : list string) (s : string) : list (list string) :=
  match s with
  | EmptyString => match st, row with AtStart, [] => [] | _, _ => [row ++ [cur]]%list end
  | String c s' =>
      match st with
      | InQuotes => if Ascii.eqb c """" then read_csv crlf AfterQuote cur row s' else read_csv crlf InQuotes (cur ++ String c "") row s'
      | _ =>
          if Ascii.eqb c ";" then read_csv crlf AtStart "" (row ++ [cur])%list s'
          else if line_end crlf c then
            match st, row with
            | AtStart, [] => read_csv crlf AtStart "" [] s'
            | _, _ => (row ++ [cur])%list :: read_csv crlf AtStart "" [] s'
            end
          else if Ascii.eqb c """" then
            match st with
            | AtStart => read_csv crlf InQuotes "" row s'
            | AfterQuote => read_csv crlf InQuotes (cur ++ String c "") row s'
            | _ => read_csv crlf Bare (cur ++ String c "") row s'
            end
          else read_csv crlf Bare (cur ++ String c "") row s'
      end
  end.
Definition csv_table (crlf : bool) (text : string) : list (list string) := read_csv crlf AtStart "" [] text.

(** reading the routes: skip the header, six fields per row *)
Definition as_row (l : list string) : res row :=
  match l with [a; b; c; d; e; f] => Ok (a, b, c, d, e, f) | _ => Err IndexError end.
Definition read_routes (crlf : bool) (modes : list mode) (text : string) : res (list route) :=
  mapM (fun l => let* w := as_row l in read_row modes w) (tl (csv_table crlf text)).
