(** * ReportSpec: a reader of the report files *)
From Coq Require Import String Ascii List ZArith QArith Qabs Bool.
From Verif Require Import PyBase PyStr Graph Mode Route Pajek Results.
Import ListNotations.
Local Open Scope Q_scope.

(** a number with two decimals: an optional sign, digits, a point and two digits *)
Definition read_abs2 (s : string) : option Q :=
  match split_on "." s with
  | [a; String c (String d EmptyString)] =>
      match int_of_str a, digit_val c, digit_val d with
      | Some n, Some x, Some y => Some (inject_Z n + (10 * x + y # 100))
      | _, _, _ => None
      end
  | _ => None
  end.
Definition read2 (s : string) : option Q :=
  match s with
  | String c t => if Ascii.eqb c "-" then option_map Qopp (read_abs2 t) else read_abs2 s
  | EmptyString => None
  end.
(** the text shows the number, to the nearest hundredth *)
Definition shows (s : string) (q : Q) : Prop := exists q', read2 s = Some q' /\ Qabs (q' - q) <= 1 # 200.
Definition showsf (s : string) (x : fval) : Prop :=
  match x with Fin q => shows s q | PInf => s = "inf"%string | NInf => s = "-inf"%string | NaN => s = "nan"%string end.

(** a list of triples of two ints and a number, in brackets *)
Definition read_triple (F : numfmt) (s : string) : option (Z * Z * Q) :=
  match split_on "," (hd EmptyString (split_on ")" s)) with
  | [a; b; c] => match int_of_str a, int_of_str b, nf_read F (strip c) with
                 | Some i, Some j, Some q => Some (i, j, q)
                 | _, _, _ => None
                 end
  | _ => None
  end.
Fixpoint read_all {A} (f : string -> option A) (l : list string) : option (list A) :=
  match l with
  | [] => Some []
  | s :: l' => match f s, read_all f l' with Some x, Some xs => Some (x :: xs) | _, _ => None end
  end.
Definition read_table (F : numfmt) (s : string) : option (list (Z * Z * Q)) := read_all (read_triple F) (tl (split_on "(" s)).

(** the line of a report with its ten columns *)
Definition line_of_row (F : numfmt) (line : string) (w : nrow) : Prop :=
  exists f1 f2 f3 f4 f5 f6 f7 f8 f9, split_on ";" line = [nr_id w; f1; f2; f3; f4; f5; f6; f7; f8; f9] /\
    shows f1 (nr_F w) /\ shows f2 (nr_f w) /\ shows f3 (nr_k w) /\ shows f4 (nr_b w) /\ shows f5 (nr_tc w) /\ shows f6 (nr_co w) /\
    showsf f7 (nr_min w) /\ read_table F f8 = Some (nr_i w) /\ read_table F f9 = Some (nr_r w).

(** a text that keeps within its column and its line *)
Definition free_of (l : list ascii) (s : string) : Prop := forall a, In a (list_ascii_of_string s) -> ~ In a l.
(** a format that prints numbers without blanks and separators, and reads them back *)
Definition tidy (F : numfmt) : Prop := forall q, nf_read F (nf_show F q) = Some q /\
  (forall a, In a (list_ascii_of_string (nf_show F q)) -> is_ws a = false /\ ~ In a [";"; ","; "("; ")"]%char).

(** "label" followed by the number *)
Definition labelled (label line : string) (q : Q) : Prop := exists s, line = (label ++ s)%string /\ shows s q.

Definition tab_char : ascii := ascii_of_nat 9.
Definition tabbed (s : string) : string := String tab_char s.
(** the five lines about a mode: an empty one, its name, its vehicles, their capacity and its lines *)
Definition mode_block (F : numfmt) (v : overall) (block : list string) (mb : mode * Q) : Prop :=
  exists l1 l2 l3, block = [""; tabbed ("Mode name: " ++ m_name (fst mb)); l1; l2; l3]%string /\
    labelled (tabbed "B [veh]      : ") l1 (snd mb) /\ labelled (tabbed "K [pax/veh]  : ") l2 (dget0 mode_eqb 0 (ov_K v) (fst mb)) /\
    l3 = tabbed ("L [lines]    : " ++ nf_show F (dget0 mode_eqb 0 (ov_L v) (fst mb))).
