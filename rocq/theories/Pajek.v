(** * Pajek: model of the text export and import of /repo/sidermit/city/graph.py

    Modelled: export_graph (216-240), __pajekfile_to_dataframe (393-454) and build_from_content
    (518-661).  graph_to_pajek_file (242-255) and build_from_file (663-680) only add the file
    system, which is not modelled.

    Simplifications:
    - number texts: '{}'.format of a float and float() of a text are the two functions of an
      explicit oracle [numfmt]; texts that float() reads as inf or nan are not covered, the
      oracle reads a rational or fails;
    - the pandas DataFrame is the list of its rows; sort_values on the two columns zone and type
      is a stable insertion sort (type compares as text, "CBD" < "P" < "SC");
    - the content format is PAJEK, the default and only member of the enumeration. *)
From Coq Require Import String Ascii List ZArith QArith Bool.
From Verif Require Import PyBase PyStr Graph.
Import ListNotations.
Local Open Scope Q_scope.

(** '{}'.format(x) and float(s) (None models ValueError) *)
Record numfmt : Type := mkFmt { nf_show : Q -> string; nf_read : string -> option Q }.

Definition newline : ascii := ascii_of_nat 10.
Definition nl : string := String newline EmptyString.

(** graph.py 229-235: the text of the three node types *)
Definition kind_text (k : kind) : string :=
  match k with CBD => "CBD" | Periphery => "P" | Subcenter => "SC" end.

(** graph.py 237-239: "{0} {1} {2} {3} {4} {5} {6}\n" *)
Definition node_line (F : numfmt) (n : node) : string :=
  (str_of_Z (nd_id n) ++ " " ++ nd_name n ++ " " ++ nf_show F (nd_x n) ++ " " ++ nf_show F (nd_y n) ++ " "
   ++ kind_text (nd_kind n) ++ " " ++ str_of_Z (nd_zone n) ++ " " ++ nf_show F (nd_width n))%string.

(** graph.py 222-240 (export_graph) *)
Definition export_graph (F : numfmt) (g : graph) : string :=
  ("Content format: [node_id] [node_name] [x] [y] [node_type] [zone_id] [node_width]" ++ nl
   ++ "Content format: each row provides have whitespace separated values" ++ nl ++ nl
   ++ "*vertices " ++ str_of_Z (Z.of_nat (length (g_nodes g))) ++ nl
   ++ String.concat EmptyString (map (fun n => node_line F n ++ nl) (g_nodes g)))%string.

(** graph.py 401-408: one row of the DataFrame *)
Record prow : Type := mkRow {
  pr_id : Z; pr_name : string; pr_x : string; pr_y : string;
  pr_kind : kind; pr_zone : Z; pr_width : string
}.

(** graph.py 423: the accepted node types *)
Definition kind_of_text (s : string) : option kind :=
  if String.eqb s "CBD" then Some CBD
  else if String.eqb s "SC" then Some Subcenter
  else if String.eqb s "P" then Some Periphery
  else None.

(** graph.py 415-445: one turn of the loop over the lines; the state is (n_nodes, rows) *)
Definition read_line (st : Z * list prow) (line : string) : res (Z * list prow) :=
  let '(n, rows) := st in
  if prefix "*vertices" (lower line) then
    match words line with
    | [_; k] => match int_of_str k with Some m => Ok (m, rows) | None => Err ValueError end
    | _ => Err ValueError
    end
  else if (0 <? n)%Z then
    match words line with
    | [node_id; name; x; y; ty; zone; width] =>
        match kind_of_text ty with
        | None => Err NodeTypeIsNotValidException
        | Some k =>
            match int_of_str node_id with
            | None => Err NodeIdIsNotAnInteger
            | Some i =>
                match int_of_str zone with
                | None => Err ZoneIdIsNotAnInteger
                | Some z => Ok ((n - 1)%Z, rows ++ [mkRow i name x y k z width])
                end
            end
        end
    | _ => Err PajekFormatIsNotValidException
    end
  else Ok st.

(** graph.py 393-454 (__pajekfile_to_dataframe) *)
Definition read_rows (data : string) : res (list prow) :=
  let* st := foldM read_line (split_on newline data) (0%Z, []) in
  Ok (snd st).

(** graph.py 531: the order of sort_values(["zone", "type"]) *)
Definition kind_rank (k : kind) : nat :=
  match k with CBD => 0 | Periphery => 1 | Subcenter => 2 end.
Definition row_leb (a b : prow) : bool :=
  ((pr_zone a <? pr_zone b)%Z
   || ((pr_zone a =? pr_zone b)%Z && Nat.leb (kind_rank (pr_kind a)) (kind_rank (pr_kind b))))%bool.
Fixpoint insert_row (r : prow) (l : list prow) : list prow :=
  match l with
  | [] => [r]
  | x :: l' => if row_leb r x then r :: x :: l' else x :: insert_row r l'
  end.
Definition sort_rows (l : list prow) : list prow := fold_right insert_row [] l.

(** graph.py 550-567: one row becomes a node object *)
Definition read_node (G : geo) (F : numfmt) (r : prow) : res node :=
  match nf_read F (pr_x r), nf_read F (pr_y r), nf_read F (pr_width r) with
  | Some x, Some y, Some w =>
      let radius := geo_sqrt G (x * x + y * y) in
      let* angle := get_angle G x y in
      new_node (pr_kind r) (pr_id r) x y radius angle w (pr_zone r) (pr_name r)
  | _, _, _ => Err ValueError
  end.

Definition of_kind (k : kind) (ns : list node) : list node :=
  filter (fun n => kind_eqb (nd_kind n) k) ns.
Definition of_zone (z : Z) (ns : list node) : list node :=
  filter (fun n => (nd_zone n =? z)%Z) ns.

(** graph.py 569-582: the lists r_sc, r_p, ang_sc and the pair (etha, etha_zone) *)
Record pj_state : Type := mkPj {
  pj_rsc : list Q; pj_rp : list Q; pj_ang : list Q; pj_etha : option (Q * Z)
}.

(** graph.py 611: ang_cbd - 0.001 <= angle_sc <= ang_cbd + 0.001 *)
Definition same_direction (ang_cbd angle_sc : Q) : bool :=
  (Qleb (ang_cbd - (1#1000)) angle_sc && Qleb angle_sc (ang_cbd + (1#1000)))%bool.

(** graph.py 584-613: one turn of the verification loop *)
Definition verify_zone (ps scs : list node) (r_cbd ang_cbd : Q) (st : pj_state) (i : nat)
  : res pj_state :=
  let zone_id := (Z.of_nat i + 1)%Z in
  match of_zone zone_id ps, of_zone zone_id scs with
  | [p], [sc] =>
      let* et :=
        (if same_direction ang_cbd (nd_angle sc)
         then let* e := qdiv r_cbd (nd_radius sc) in Ok (Some (e, zone_id))
         else Ok (pj_etha st)) in
      Ok (mkPj (pj_rsc st ++ [nd_radius sc]) (pj_rp st ++ [nd_radius p])
               (pj_ang st ++ [nd_angle sc]) et)
  | _, _ => Err PeripherySubcenterNumberForZoneException
  end.

(** sum(l) / len(l) *)
Definition py_mean (l : list Q) : res Q := qdiv (Qsum l) (Qofnat (length l)).

(** graph.py 615-619: L and g *)
Definition derived_lg (r_sc r_p : list Q) : res (Q * Q) :=
  match r_sc, r_p with
  | [], _ | _, [] => Ok (0, 0)
  | _, _ =>
      let* l := py_mean r_sc in
      let* m := py_mean r_p in
      let* g := qdiv (m - l) l in
      Ok (l, g)
  end.

(** graph.py 633-646: one turn of the loop that adds the zones *)
Definition import_zone (ps scs : list node) (gr : graph) (i : nat) : res graph :=
  match of_zone (Z.of_nat i + 1) ps, of_zone (Z.of_nat i + 1) scs with
  | p :: _, sc :: _ => add_zone gr p sc None
  | _, _ => Err AttributeError
  end.

(** graph.py 531-661: from the rows to the graph.  The Gi and Hi of 623-625 are computed by two
    passes instead of one: both divisions raise the same exception. *)
Definition import_rows (G : geo) (F : numfmt) (rows0 : list prow) : res city :=
  let rows := sort_rows rows0 in
  let len := length rows in
  raise_if (negb (Nat.odd len && (Z.of_nat len <? 10000)%Z)) LineNumberInFileIsNotValidException (
  let n := Nat.div (len - 1) 2 in
  let* nodes := mapM (read_node G F) rows in
  let width := nd_width (last nodes (mkNode CBD 0 0 0 0 0 0 0 EmptyString)) in
  let cbd := of_kind CBD nodes in
  let periphery := of_kind Periphery nodes in
  let subcenter := of_kind Subcenter nodes in
  let '(r_cbd, ang_cbd) := match cbd with [c] => (nd_radius c, nd_angle c) | _ => (0, 0) end in
  let* st := foldM (verify_zone periphery subcenter r_cbd ang_cbd) (seq 0 n) (mkPj [] [] [] None) in
  let* lg := derived_lg (pj_rsc st) (pj_rp st) in
  let '(l, g) := lg in
  let* Gi := mapM (fun r => qdiv r l) (pj_rsc st) in
  let* Hi := mapM (fun r => qdiv r (l + g * l)) (pj_rp st) in
  let P := mkParams (Z.of_nat n) l g width (option_map fst (pj_etha st)) (option_map snd (pj_etha st))
             (Some (pj_ang st)) (Some Gi) (Some Hi) in
  let* ok := parameters_validator P in
  let* gr := (if ok then foldM (import_zone periphery subcenter) (seq 0 n)
                          (fold_left add_cbd cbd empty_graph)
              else Ok empty_graph) in
  Ok (mkCity gr P)).

(** graph.py 518-661 (build_from_content) *)
Definition build_from_content (G : geo) (F : numfmt) (data : string) : res city :=
  let* rows := read_rows data in
  import_rows G F rows.
