(** * Report: model of the texts of /repo/sidermit/optimization/optimizer.py

    Simplifications, valid for the whole file: numbers are exact rationals, so that Python's -0.0 prints as 0 does;
    '{}' of a number is the format [F], and the int 0 is not told apart from the float 0.0; '{:.2f}' is modelled
    exactly (nearest hundredth, ties to even, of the exact value). *)
From Coq Require Import String Ascii List ZArith QArith Qabs Bool.
From Verif Require Import PyBase PyStr Graph Mode Route Network Pajek ExtGraph Costs Optimizer Results.
Import ListNotations.
Local Open Scope Q_scope.

(** the nearest integer to 100 |q|, the even one if there are two *)
Definition hundredths (q : Q) : Z :=
  let t := 100 * Qabs q in
  let d := Zpos (Qden t) in
  let k := (Qnum t / d)%Z in
  let r := (2 * (Qnum t mod d))%Z in
  if (r <? d)%Z then k else if (d <? r)%Z then (k + 1)%Z else if Z.even k then k else (k + 1)%Z.
(** '{:.2f}'.format(q) *)
Definition fmt2 (q : Q) : string :=
  let k := hundredths q in
  ((if Qltb q 0 then "-" else "") ++ str_of_Z (k / 100) ++ "." ++ str_of_Z (k mod 100 / 10) ++ str_of_Z (k mod 10))%string.
(** '{:.2f}'.format of a float that may be infinite *)
Definition fmt2f (x : fval) : string :=
  match x with Fin q => fmt2 q | PInf => "inf" | NInf => "-inf" | NaN => "nan" end%string.
(** '{}'.format of a float that may be infinite *)
Definition showf (F : numfmt) (x : fval) : string :=
  match x with Fin q => nf_show F q | PInf => "inf" | NInf => "-inf" | NaN => "nan" end%string.

(** '{}'.format of a list of tuples (int, int, float) *)
Definition tuple_text (F : numfmt) (t : Z * Z * Q) : string :=
  let '(i, j, c) := t in ("(" ++ str_of_Z i ++ ", " ++ str_of_Z j ++ ", " ++ nf_show F c ++ ")")%string.
Definition table_text (F : numfmt) (l : list (Z * Z * Q)) : string :=
  ("[" ++ String.concat ", " (map (tuple_text F) l) ++ "]")%string.

(** 727 *)
Definition report_header : string :=
  "route_id;F[veh/hr];f[veh/hr-line];k[pax/veh];B[veh];tc[min];CO[US$/hr-pax];load_min;sub_table_i;sub_table_r".
(** 729-733 *)
Definition report_line (F : numfmt) (w : nrow) : string :=
  (nr_id w ++ ";" ++ fmt2 (nr_F w) ++ ";" ++ fmt2 (nr_f w) ++ ";" ++ fmt2 (nr_k w) ++ ";" ++ fmt2 (nr_b w) ++ ";"
   ++ fmt2 (nr_tc w) ++ ";" ++ fmt2 (nr_co w) ++ ";" ++ fmt2f (nr_min w) ++ ";" ++ table_text F (nr_i w) ++ ";"
   ++ table_text F (nr_r w))%string.
(** 719-734 (string_network_results); 735-744 (write_file_network_results) writes this text *)
Definition string_network_results (F : numfmt) (o : optimizer) (better : option entry) : res string :=
  let* rows := get_network_results o better in
  Ok (fold_left (fun line w => (line ++ nl ++ report_line F w)%string) rows report_header).

(** 856-875 (string_overall_results) *)
Definition string_overall_results (F : numfmt) (o : optimizer) (better : option entry) : res string :=
  let* v := get_overall_results o better in
  let line := (nl ++ nl ++ "Objective function VRC [USD$/hr-pax]: " ++ fmt2 (ov_vrc v)
    ++ nl ++ "Operators cost [USD$/hr-pax]        : " ++ fmt2 (ov_co v)
    ++ nl ++ "Infrastructure cost [USD$/hr-pax]   : " ++ fmt2 (ov_ci v)
    ++ nl ++ "Users cost [USD$/hr-pax]            : " ++ fmt2 (ov_cu v)
    ++ nl ++ nl ++ "Resources consumer for users"
    ++ nl ++ "Time on board vehicle [min/pax]: " ++ fmt2 (ov_tv v)
    ++ nl ++ "Waiting time [min/pax]         : " ++ fmt2 (ov_te v)
    ++ nl ++ "Access time [min/pax]          : " ++ fmt2 (ov_ta v)
    ++ nl ++ "total travel time [min/pax]    : " ++ fmt2 (ov_tv v + ov_ta v + ov_te v)
    ++ nl ++ "Transfers [transfers/pax]      : " ++ fmt2 (ov_t v)
    ++ nl ++ nl ++ "Transport mode information: " ++ str_of_Z (Z.of_nat (length (ov_B v))))%string in
  let tab := String (ascii_of_nat 9) EmptyString in
  Ok (fold_left (fun line '(m, b) =>
    (line ++ nl ++ nl ++ tab ++ "Mode name: " ++ m_name m
     ++ nl ++ tab ++ "B [veh]      : " ++ fmt2 b
     ++ nl ++ tab ++ "K [pax/veh]  : " ++ fmt2 (dget0 mode_eqb 0 (ov_K v) m)
     ++ nl ++ tab ++ "L [lines]    : " ++ nf_show F (dget0 mode_eqb 0 (ov_L v) m))%string) (ov_B v) line).

Definition bool_text (b : option bool) : string :=
  match b with Some true => "True" | Some false => "False" | None => "None" end.
(** 470-490 (string_network_optimization); the text of a number of the summary is that of [showf] *)
Definition string_network_optimization (F : numfmt) (o : optimizer) (e : entry) : res string :=
  let* f := fopt_to_f (o_pos o) (e_x e) in
  let line := (nl ++ nl ++ "Optimization Results"
    ++ nl ++ "Success: " ++ bool_text (e_success e)
    ++ nl ++ "Status: " ++ str_of_Z (e_status e)
    ++ nl ++ "Message: " ++ e_message e
    ++ nl ++ "Max constrain violation: " ++ showf F (e_viol e)
    ++ nl ++ "VRC: " ++ showf F (e_fun e)
    ++ nl ++ nl ++ "Frequency information [veh/hr]: ")%string in
  let tab := String (ascii_of_nat 9) EmptyString in
  Ok (fold_left (fun line '(r, q) => (line ++ nl ++ tab ++ r ++ ": " ++ fmt2 q)%string) f line).
