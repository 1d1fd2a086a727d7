(** * Demand: model of /repo/sidermit/city/demand.py

    Simplifications: floats are exact rationals; the isinstance checks of
    parameters_validator (demand.py 110-117) never fire on typed arguments; a demand file is its
    list of lines (each with its newline), and printing/parsing of float cells is an oracle. *)
From Coq Require Import String Ascii List ZArith QArith Bool.
From Verif Require Import PyBase PyStr Graph.
Import ListNotations.
Local Open Scope Q_scope.

(** demand.py 15-31: a Demand object. The graph is never mutated through it. *)
Record demand : Type := mkDemand {
  dm_nodes : list node;   (* graph_obj.get_nodes() *)
  dm_n : Z;               (* graph_obj.get_n() *)
  dm_matrix : dict2;      (* [origin][destination] = vij *)
  dm_total : Q
}.

(** demand.py 63-70 (__build_default_matrix) *)
Definition default_matrix (nodes : list node) : dict2 :=
  fold_left (fun M o => fold_left (fun M d => dict2_set M (nd_id o) (nd_id d) 0) nodes M) nodes [].

(** demand.py 15-31 (__init__) *)
Definition new_demand (nodes : list node) (n : Z) : demand :=
  mkDemand nodes n (default_matrix nodes) 0.

(** demand.py 72-91 (change_vij): the state after the call and the exception raised, if any.
    [self.__matrix.get(o)] is falsy when the row is missing or empty. *)
Definition change_vij (D : demand) (o d : Z) (v : Q) : demand * option exn :=
  if Qltb v 0 then (D, Some TripsValueIsNotValidException)
  else
    match dget Z.eqb (dm_matrix D) o with
    | None | Some [] => (D, Some OriginIdDoesNotFoundException)
    | Some row =>
        match dget Z.eqb row d with
        | None => (D, Some DestinationIdDoesNotFoundException)
        | Some old =>
            (mkDemand (dm_nodes D) (dm_n D) (dict2_set (dm_matrix D) o d v) (dm_total D - old + v), None)
        end
    end.

(** the same call inside another function: an exception propagates *)
Definition change_vij_r (D : demand) (o d : Z) (v : Q) : res demand :=
  match change_vij D o d v with
  | (D', None) => Ok D'
  | (_, Some e) => Err e
  end.

(** A read get_matrix()[o] through the default dict (demand.py 27, 93-98) inserts an empty row. *)
Definition read_row (D : demand) (o : Z) : demand :=
  mkDemand (dm_nodes D) (dm_n D) (dtouch Z.eqb [] (dm_matrix D) o) (dm_total D).
(** A read get_matrix()[o][d] inserts the row and a cell 0.0 when missing. *)
Definition read_cell (D : demand) (o d : Z) : demand * Q :=
  let M := dtouch Z.eqb [] (dm_matrix D) o in
  let row := dget0 Z.eqb [] M o in
  (mkDemand (dm_nodes D) (dm_n D) (dset Z.eqb M o (dtouch Z.eqb 0 row d)) (dm_total D),
   dget0 Z.eqb 0 row d).

(** Calls a client can make on a Demand object. *)
Inductive dop : Type :=
| DChange (o d : Z) (v : Q)
| DReadRow (o : Z)
| DReadCell (o d : Z).
Definition dstep (D : demand) (op : dop) : demand :=
  match op with
  | DChange o d v => fst (change_vij D o d v)
  | DReadRow o => read_row D o
  | DReadCell o d => fst (read_cell D o d)
  end.
Definition drun (D : demand) (ops : list dop) : demand := fold_left dstep ops D.

(** demand.py 101-129 (parameters_validator) *)
Definition demand_validator (y a alpha beta : Q) : res bool :=
  raise_if (Qltb y 0) YOutOfRangeException (
  raise_if (Qltb 1 a || Qltb a 0) AOutOfRangeException (
  raise_if (Qltb 1 alpha || Qltb alpha 0) AlphaOutOfRangeException (
  raise_if (Qleb 1 beta || Qltb beta 0) BetaOutOfRangeException (
  raise_if (Qltb 1 (alpha + beta)) AlphaBetaOutOfRangeException (
  Ok true))))).

(** demand.py 187-193: the LAST node of the list with the given id *)
Definition find_last_node (nodes : list node) (id : Z) : option node :=
  fold_left (fun acc n => if (nd_id n =? id)%Z then Some n else acc) nodes None.

Definition is_kind (k : kind) (o : option node) : bool :=
  match o with Some n => kind_eqb (nd_kind n) k | None => false end.
Definition same_zone (a b : option node) : bool :=
  match a, b with Some x, Some y => (nd_zone x =? nd_zone y)%Z | _, _ => false end.

(** demand.py 147-181: the five cell values *)
Record shares : Type := mkShares {
  s_p_cbd : Q; s_p_sc : Q; s_p_osc : Q; s_sc_cbd : Q; s_sc_osc : Q
}.
Definition compute_shares (n : Z) (y a alpha beta0 : Q) : res shares :=
  let b := 1 - a in
  let* gagg :=
    (if (1 <? n)%Z then
       let gamma := 1 - alpha - beta0 in
       let* alpha_g := qdiv alpha (1 - beta0) in
       let* gamma_g := qdiv gamma (1 - beta0) in
       Ok (gamma, gamma_g, alpha_g, beta0)
     else Ok (0, 0, 1, 1 - alpha)) in
  let '(gamma, gamma_g, alpha_g, beta) := gagg in
  let* y_z := (if (n =? 0)%Z then Ok y else qdiv y (inject_Z n)) in
  let y_p := a * y_z in
  let y_sc := b * y_z in
  let v_p_cbd := alpha * y_p in
  let v_p_sc := beta * y_p in
  let* v_p_osc := (if (1 <? n)%Z then qdiv (gamma * y_p) (inject_Z (n - 1)) else Ok 0) in
  let v_sc_cbd := y_sc * alpha_g in
  let* v_sc_osc := (if (1 <? n)%Z then qdiv (y_sc * gamma_g) (inject_Z (n - 1)) else Ok 0) in
  Ok (mkShares v_p_cbd v_p_sc v_p_osc v_sc_cbd v_sc_osc).

(** demand.py 187-218: the body of the double loop for one pair of ids *)
Definition param_cell (s : shares) (D : demand) (od : Z * Z) : res demand :=
  let '(o, d) := od in
  let on := find_last_node (dm_nodes D) o in
  let dn := find_last_node (dm_nodes D) d in
  if is_kind CBD on then Ok D
  else if is_kind Periphery dn then Ok D
  else
    let* D := (if is_kind Periphery on && is_kind CBD dn then change_vij_r D o d (s_p_cbd s) else Ok D) in
    let* D := (if is_kind Periphery on && is_kind Subcenter dn && same_zone on dn
               then change_vij_r D o d (s_p_sc s) else Ok D) in
    let* D := (if is_kind Periphery on && is_kind Subcenter dn && negb (same_zone on dn)
               then change_vij_r D o d (s_p_osc s) else Ok D) in
    let* D := (if is_kind Subcenter on && is_kind CBD dn then change_vij_r D o d (s_sc_cbd s) else Ok D) in
    let* D := (if is_kind Subcenter on && is_kind Subcenter dn && negb (same_zone on dn)
               then change_vij_r D o d (s_sc_osc s) else Ok D) in
    Ok D.

(** the keys visited by demand.py 184-186; change_vij never adds a key, so iterating over the
    initial keys is the same as iterating over the live dictionary *)
Definition cell_keys (M : dict2) : list (Z * Z) :=
  flat_map (fun r => map (fun c => (fst r, fst c)) (snd r)) M.

(** demand.py 132-220 (build_from_parameters) *)
Definition demand_from_parameters (nodes : list node) (n : Z) (y a alpha beta : Q) : res demand :=
  let D := new_demand nodes n in
  let* ok := demand_validator y a alpha beta in
  let* s := compute_shares n y a alpha beta in
  foldM (param_cell s) (cell_keys (dm_matrix D)) D.

(** demand.py 271-278: one cell of build_from_content *)
Definition content_cell (nodes : list node) (row : list Q) (i : nat) (D : demand) (j : nat) : res demand :=
  let* o := py_nth nodes i in
  let* d := py_nth nodes j in
  let* v := py_nth row j in
  raise_if (Qltb v 0) VijIsNotValidException (
  change_vij_r D (nd_id o) (nd_id d) v).

(** demand.py 268-278: one row *)
Definition content_row (nodes : list node) (matrix : list (list Q)) (D : demand) (i : nat) : res demand :=
  let* row := py_nth matrix i in
  raise_if (negb (Nat.eqb (length nodes) (length row))) DemandMatrixIsNotValidException (
  foldM (content_cell nodes row i) (seq 0 (length row)) D).

(** demand.py 254-280 (build_from_content) *)
Definition demand_from_content (nodes : list node) (n : Z) (matrix : list (list Q)) : res demand :=
  let D := new_demand nodes n in
  raise_if (negb (Nat.eqb (length nodes) (length matrix))) DemandMatrixIsNotValidException (
  foldM (content_row nodes matrix) (seq 0 (length matrix)) D).

(** ** Text files *)
(** printing of a float cell by pandas and float(s): an explicit oracle *)
Record floatio : Type := mkFloatIO {
  fl_print : Q -> string;
  fl_parse : string -> option Q
}.
Definition newline : string := String (Ascii.ascii_of_nat 10) EmptyString.

(** demand.py 46-61 (matrix_to_file): the rows of the data frame *)
Definition matrix_rows (M : dict2) : list (Z * Z * Q) :=
  flat_map (fun r => map (fun c => (fst r, fst c, snd c)) (snd r)) M.
(** ... and the lines of the csv file *)
Definition csv_line (F : floatio) (r : Z * Z * Q) : string :=
  let '(o, d, v) := r in
  String.append (str_of_Z o) (String.append ","%string (String.append (str_of_Z d)
    (String.append ","%string (String.append (fl_print F v) newline)))).
Definition matrix_to_lines (F : floatio) (D : demand) : list string :=
  String.append "origin,destination,vij"%string newline :: map (csv_line F) (matrix_rows (dm_matrix D)).

(** demand.py 242-250: one line after the header *)
Definition read_line (F : floatio) (D : demand) (line : string) : res demand :=
  match split_on ","%char line with
  | [so; sd; sv] =>
      match int_of_str so with
      | None => Err NodeIdDemandIsNotAnInteger
      | Some o =>
        match int_of_str sd with
        | None => Err NodeIdDemandIsNotAnInteger
        | Some d =>
          match fl_parse F sv with
          | None => Err NodeIdDemandIsNotAnInteger
          | Some v => change_vij_r D o d v
          end
        end
      end
  | _ => Err FileFormatIsNotValidException
  end.
(** demand.py 223-251 (build_from_file) *)
Definition demand_from_lines (F : floatio) (nodes : list node) (n : Z) (lines : list string) : res demand :=
  foldM (read_line F) (tl lines) (new_demand nodes n).
