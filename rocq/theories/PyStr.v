(** * PyStr: the Python string operations used by the modelled code.

    Simplification: strings are byte strings; only ASCII white space and ASCII
    digits are recognised (Python also accepts Unicode ones). *)
From Coq Require Import String Ascii List ZArith Bool Decimal DecimalString DecimalZ.
Import ListNotations.
Local Open Scope string_scope.

(** str(z) for an int *)
Definition str_of_Z (z : Z) : string := NilZero.string_of_int (Z.to_int z).

(** white space characters recognised by str.split() and str.strip():
    \t \n \v \f \r, FS GS RS US and the blank *)
Definition is_ws (c : ascii) : bool :=
  let n := N_of_ascii c in
  ((9 <=? n) && (n <=? 13) || (28 <=? n) && (n <=? 32))%N.

(** s.split(c) for a one-character separator: never empty *)
Fixpoint split_on (c : ascii) (s : string) : list string :=
  match s with
  | EmptyString => [EmptyString]
  | String a s' =>
      if Ascii.eqb a c then EmptyString :: split_on c s'
      else match split_on c s' with
           | [] => [String a EmptyString]
           | w :: ws => String a w :: ws
           end
  end.

(** s.split(): maximal runs of non-blank characters *)
Fixpoint words_aux (cur : string) (s : string) : list string :=
  match s with
  | EmptyString => match cur with EmptyString => [] | _ => [cur] end
  | String a s' =>
      if is_ws a
      then match cur with EmptyString => words_aux EmptyString s'
                        | _ => cur :: words_aux EmptyString s' end
      else words_aux (cur ++ String a EmptyString) s'
  end.
Definition words (s : string) : list string := words_aux EmptyString s.

Fixpoint lstrip (s : string) : string :=
  match s with
  | String a s' => if is_ws a then lstrip s' else s
  | EmptyString => EmptyString
  end.
Fixpoint rev_string (s acc : string) : string :=
  match s with EmptyString => acc | String a s' => rev_string s' (String a acc) end.
Definition strip (s : string) : string :=
  rev_string (lstrip (rev_string (lstrip s) EmptyString)) EmptyString.

Definition digit_val (c : ascii) : option Z :=
  let n := N_of_ascii c in
  if ((48 <=? n) && (n <=? 57))%N then Some (Z.of_N (n - 48)) else None.

(** the digits of an int literal: digits with single underscores between them *)
Fixpoint int_digits (prev_digit : bool) (acc : Z) (s : string) : option Z :=
  match s with
  | EmptyString => if prev_digit then Some acc else None
  | String a s' =>
      match digit_val a with
      | Some d => int_digits true (10 * acc + d) s'
      | None => if (Ascii.eqb a "_" && prev_digit)%bool then int_digits false acc s' else None
      end
  end.

(** int(s) for a string: None models ValueError *)
Definition int_of_str (s : string) : option Z :=
  match strip s with
  | String a s' =>
      if Ascii.eqb a "-" then option_map Z.opp (int_digits false 0 s')
      else if Ascii.eqb a "+" then int_digits false 0 s'
      else int_digits false 0 (String a s')
  | EmptyString => None
  end.

(** s.lower() on ASCII letters *)
Definition lower_char (c : ascii) : ascii :=
  let n := N_of_ascii c in
  if ((65 <=? n) && (n <=? 90))%N then ascii_of_N (n + 32) else c.
Fixpoint lower (s : string) : string :=
  match s with EmptyString => EmptyString | String a s' => String (lower_char a) (lower s') end.

(** s.startswith(p) is [prefix p s]; sep.join(l) is [String.concat sep l]. *)
