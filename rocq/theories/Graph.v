(** * Graph: model of /repo/sidermit/city/graph.py (all but text import/export, see Pajek.v)

    Simplifications, valid for the whole file:
    - arguments have the declared types (no None ids, no non-numeric values), so the
      [is None] and [isinstance(_, int)] tests of the code never fire;
    - floats are exact rationals;
    - cos, sin (of degrees), sqrt and acos (in degrees) are an explicit oracle [geo];
    - node objects are referred to by their position in the list [__nodes] (every node object
      is stored there exactly once), so mutating an object through a zone or through the list
      is one and the same update, as in Python. *)
From Coq Require Import String List ZArith QArith Bool.
From Verif Require Import PyBase PyStr.
Import ListNotations.
Local Open Scope Q_scope.

(** The mathematical functions of Python's math module used by graph.py
    (math.cos(math.radians(a)), math.sin(math.radians(a)), math.sqrt and **0.5,
    math.degrees(math.acos(c))): graph.py 473, 495-499, 515, 558. *)
Record geo : Type := mkGeo {
  geo_cos : Q -> Q;
  geo_sin : Q -> Q;
  geo_sqrt : Q -> Q;
  geo_acos : Q -> Q
}.

(** graph.py 61, 81, 99: the three subclasses of Node *)
Inductive kind : Type := CBD | Periphery | Subcenter.
Definition kind_eqb (a b : kind) : bool :=
  match a, b with
  | CBD, CBD | Periphery, Periphery | Subcenter, Subcenter => true
  | _, _ => false
  end.

(** graph.py 24-58: attributes of a Node *)
Record node : Type := mkNode {
  nd_kind : kind;
  nd_id : Z;
  nd_x : Q;
  nd_y : Q;
  nd_radius : Q;
  nd_angle : Q;
  nd_width : Q;
  nd_zone : Z;
  nd_name : string
}.

(** graph.py 39-58 (Node.__init__), 76-78 (CBD.__init__), 96, 114 *)
Definition new_node (k : kind) (id : Z) (x y radius angle width : Q) (zone : Z) (name : string)
  : res node :=
  raise_if (kind_eqb k CBD && negb (zone =? 0)%Z) ZoneIdIsNotValidException (
  raise_if (Qltb radius 0) NodeRadiusIsNotValidException (
  raise_if (Qltb angle 0 || Qltb 360 angle) NodeAngleIsNotValidException (
  raise_if (Qltb width 0) NodeWidthIsNotValidException (
  Ok (mkNode k id x y radius angle width zone name))))).

(** graph.py 117-142: a Zone holds references to its two nodes *)
Record zone : Type := mkZone { z_id : Z; z_p : nat; z_sc : nat }.

(** graph.py 127-142 (Zone.__init__): the checks *)
Definition check_zone (zid : Z) (p sc : node) : res unit :=
  raise_if (zid <=? 0)%Z ZoneIdIsNotValidException (
  raise_if (negb (kind_eqb (nd_kind p) Periphery)) PeripheryNodeTypeIsNotValidException (
  raise_if (negb (kind_eqb (nd_kind sc) Subcenter)) SubcenterNodeTypeIsNotValidException (
  raise_if (negb (nd_zone p =? zid)%Z || negb (nd_zone sc =? zid)%Z) ZoneIdIsNotValidException (
  Ok tt)))).

(** graph.py 145-165: an Edge refers to its two nodes *)
Record edge : Type := mkEdge { e_id : Z; e_n1 : nat; e_n2 : nat }.

(** graph.py 155-165 (Edge.__init__): the checks on the types of the two nodes *)
Definition check_edge (a b : node) : res unit :=
  raise_if (kind_eqb (nd_kind a) Periphery && kind_eqb (nd_kind b) Periphery) EdgeIsNotAvailableException (
  raise_if (kind_eqb (nd_kind a) Periphery && kind_eqb (nd_kind b) CBD) EdgeIsNotAvailableException (
  raise_if (kind_eqb (nd_kind a) CBD && kind_eqb (nd_kind b) Periphery) EdgeIsNotAvailableException (
  Ok tt))).

(** graph.py 194-202, 380-388: construction parameters kept in the graph *)
Record params : Type := mkParams {
  p_n : Z;
  p_l : Q;
  p_g : Q;
  p_p : Q;
  p_etha : option Q;
  p_etha_zone : option Z;
  p_angles : option (list Q);
  p_Gi : option (list Q);
  p_Hi : option (list Q)
}.

(** graph.py 179-202: a Graph object ([__edges_id] and [__cbd_exist] are never read, dropped) *)
Record graph : Type := mkGraph {
  g_nodes : list node;
  g_nodes_id : list Z;
  g_zones : list zone;
  g_edges : list edge
}.
Definition empty_graph : graph := mkGraph [] [] [] [].

(** A finished Graph: its content and the stored parameters (graph.py 380-390, 651-661) *)
Record city : Type := mkCity { c_graph : graph; c_params : params }.

(** graph.py 257-311 (parameters_validator); [n] is an int *)
Definition parameters_validator (P : params) : res bool :=
  raise_if (p_n P <? 0)%Z NIsNotValidNumberException (
  raise_if (Qltb (p_l P) 0) LIsNotValidNumberException (
  raise_if (Qltb (p_g P) 0) GIsNotValidNumberException (
  raise_if (Qltb (p_p P) 0) PIsNotValidNumberException (
  let* _ :=
    match p_etha P, p_etha_zone P with
    | None, Some _ => Err EthaValueRequiredException
    | Some _, None => Err EthaZoneValueRequiredException
    | Some e, Some z =>
        if Qltb e 0 || Qltb 1 e then Err EthaValueIsNotValidException
        else if (z <=? 0)%Z || (p_n P <? z)%Z then Err EthaZoneValueIsNotValidException
        else Ok tt
    | None, None => Ok tt
    end in
  let* _ :=
    match p_angles P with
    | None => Ok tt
    | Some a =>
        raise_if (negb (Z.of_nat (length a) =? p_n P)%Z) AngleListLengthIsNotValidException (
        raise_if (existsb (fun x => Qltb x 0 || Qltb 360 x) a) AngleValueIsNotValidException (Ok tt))
    end in
  let* _ :=
    match p_Gi P with
    | None => Ok tt
    | Some a =>
        raise_if (negb (Z.of_nat (length a) =? p_n P)%Z) GiListLengthIsNotValidException (
        raise_if (existsb (fun x => Qltb x 0) a) GiValueIsNotValidException (Ok tt))
    end in
  let* _ :=
    match p_Hi P with
    | None => Ok tt
    | Some a =>
        raise_if (negb (Z.of_nat (length a) =? p_n P)%Z) HiListLengthIsNotValidException (
        raise_if (existsb (fun x => Qltb x 0) a) HiValueIsNotValidException (Ok tt))
    end in
  Ok true)))).

(** graph.py 507-516 (get_xy) *)
Definition get_xy (G : geo) (radius angle : Q) : Q * Q :=
  (radius * geo_cos G angle, radius * geo_sin G angle).

(** graph.py 477-505 (get_angle); math.acos raises ValueError outside [-1, 1] *)
Definition get_angle (G : geo) (x y : Q) : res Q :=
  if Qeqb x 0 && Qeqb y 0 then Ok 0
  else
    let dot := 1 * x + 0 * y in
    let md := geo_sqrt G (1 * 1 + 0 * 0) * geo_sqrt G (x * x + y * y) in
    let* c := qdiv dot md in
    if Qltb c (-1) || Qltb 1 c then Err ValueError
    else
      let a := geo_acos G c in
      if Qltb y 0 then
        if Qleb 0 x then Ok (360 - a) else Ok ((180 - a) + 180)
      else Ok a.

(** graph.py 682-690 (__add_cbd) *)
Definition add_cbd (g : graph) (n : node) : graph :=
  mkGraph (g_nodes g ++ [n]) (g_nodes_id g ++ [nd_id n]) (g_zones g) (g_edges g).

(** graph.py 715-730 (__add_nodes) *)
Definition add_nodes (g : graph) (p sc : node) : res graph :=
  raise_if (zmem (nd_id p) (g_nodes_id g) || zmem (nd_id sc) (g_nodes_id g)) NodeIdDuplicatedException (
  Ok (mkGraph (g_nodes g ++ [p; sc]) (g_nodes_id g ++ [nd_id p; nd_id sc]) (g_zones g) (g_edges g))).

(** graph.py 789-796 (__add_edge) with the constructor call Edge(len(edges) + 1, a, b) *)
Definition add_edge (nodes : list node) (es : list edge) (ab : nat * nat) : res (list edge) :=
  let* a := py_nth nodes (fst ab) in
  let* b := py_nth nodes (snd ab) in
  let* _ := check_edge a b in
  Ok (es ++ [mkEdge (Z.of_nat (length es) + 1) (fst ab) (snd ab)]).

(** graph.py 770-787: the six arcs added for zone i when there are more than two zones *)
Definition ring_arcs (zs : list zone) (i : nat) : res (list (nat * nat)) :=
  let* zi := py_nth zs i in
  let j := if Nat.eqb i (length zs - 1) then 0%nat else S i in
  let* zj := py_nth zs j in
  let p := z_p zi in let sc := z_sc zi in let cbd := 0%nat in let sc2 := z_sc zj in
  Ok [(p, sc); (sc, p); (sc, cbd); (cbd, sc); (sc, sc2); (sc2, sc)].

(** graph.py 741-787: the arcs in the order in which they are added *)
Definition zone_arcs (zs : list zone) : res (list (nat * nat)) :=
  match zs with
  | [] => Ok []
  | [z] => Ok [(z_p z, z_sc z); (z_sc z, z_p z); (z_sc z, 0%nat); (0%nat, z_sc z)]
  | [z1; z2] =>
      Ok [(z_p z1, z_sc z1); (z_sc z1, z_p z1); (z_sc z1, 0%nat); (0%nat, z_sc z1);
          (z_sc z1, z_sc z2); (z_sc z2, z_sc z1);
          (z_p z2, z_sc z2); (z_sc z2, z_p z2); (z_sc z2, 0%nat); (0%nat, z_sc z2)]
  | _ => let* ls := mapM (ring_arcs zs) (seq 0 (length zs)) in Ok (concat ls)
  end.

(** graph.py 732-787 (__build_edges): always starts from an empty edge list *)
Definition build_edges (g : graph) : res graph :=
  let* arcs := zone_arcs (g_zones g) in
  let* es := foldM (add_edge (g_nodes g)) arcs [] in
  Ok (mkGraph (g_nodes g) (g_nodes_id g) (g_zones g) es).

(** graph.py 692-713 (__add_zone) *)
Definition add_zone (g : graph) (p sc : node) (zid : option Z) : res graph :=
  raise_if (Nat.eqb (length (g_nodes g)) 0) CBDDoesNotExistException (
  let zid := match zid with Some z => z | None => (Z.of_nat (length (g_zones g)) + 1)%Z end in
  let* _ := check_zone zid p sc in
  let g1 := mkGraph (g_nodes g) (g_nodes_id g)
              (g_zones g ++ [mkZone zid (length (g_nodes g)) (S (length (g_nodes g)))]) (g_edges g) in
  let* g2 := add_nodes g1 p sc in
  build_edges g2).

(** graph.py 347-365: one turn of the zone loop of build_from_parameters *)
Definition add_param_zone (G : geo) (n : Z) (l g p : Q) (gr : graph) (zn : nat) : res graph :=
  let zone := Z.of_nat zn in
  let periphery_radius := l + g * l in
  let subcenter_radius := l in
  let* step := qdiv 360 (inject_Z n) in
  let angle := step * inject_Z zone in
  let '(x_p, y_p) := get_xy G periphery_radius angle in
  let '(x_sc, y_sc) := get_xy G subcenter_radius angle in
  let* np := new_node Periphery (2 * zone + 1) x_p y_p periphery_radius angle p (zone + 1)
               (String.append "P_" (str_of_Z (zone + 1))) in
  let* nsc := new_node Subcenter (2 * zone + 2) x_sc y_sc subcenter_radius angle p (zone + 1)
               (String.append "SC_" (str_of_Z (zone + 1))) in
  add_zone gr np nsc (Some (zone + 1)%Z).

(** in-place update of the object with reference i *)
Fixpoint upd_nth {A : Type} (l : list A) (i : nat) (f : A -> A) : list A :=
  match l, i with
  | [], _ => []
  | x :: l', O => f x :: l'
  | x :: l', S i' => x :: upd_nth l' i' f
  end.

Definition set_xya (x y a : Q) (n : node) : node :=
  mkNode (nd_kind n) (nd_id n) x y (nd_radius n) a (nd_width n) (nd_zone n) (nd_name n).
Definition set_xyr (x y r : Q) (n : node) : node :=
  mkNode (nd_kind n) (nd_id n) x y r (nd_angle n) (nd_width n) (nd_zone n) (nd_name n).
Definition set_xyra (x y r a : Q) (n : node) : node :=
  mkNode (nd_kind n) (nd_id n) x y r a (nd_width n) (nd_zone n) (nd_name n).

(** graph.py 888-928 (__angles_asymmetry); the writes through the node list (908-916) and
    through the zone (919-925) hit the same objects and are one update *)
Definition angles_asymmetry (G : geo) (gr : graph) (angles : list Q) : res graph :=
  let* nodes := foldM (fun nodes i =>
      let* ang := py_nth angles i in
      let* z := py_nth (g_zones gr) i in
      let* p := py_nth nodes (z_p z) in
      let* sc := py_nth nodes (z_sc z) in
      let '(x_p, y_p) := get_xy G (nd_radius p) ang in
      let '(x_sc, y_sc) := get_xy G (nd_radius sc) ang in
      Ok (upd_nth (upd_nth nodes (z_p z) (set_xya x_p y_p ang)) (z_sc z) (set_xya x_sc y_sc ang)))
    (seq 0 (length (g_zones gr))) (g_nodes gr) in
  build_edges (mkGraph nodes (g_nodes_id gr) (g_zones gr) (g_edges gr)).

(** graph.py 855-886 (__Gi_asymmetry) *)
Definition Gi_asymmetry (G : geo) (gr : graph) (Gi : list Q) : res graph :=
  let* nodes := foldM (fun nodes i =>
      let* gi := py_nth Gi i in
      let* z := py_nth (g_zones gr) i in
      let* sc := py_nth nodes (z_sc z) in
      let r := gi * nd_radius sc in
      let '(x, y) := get_xy G r (nd_angle sc) in
      Ok (upd_nth nodes (z_sc z) (set_xyr x y r)))
    (seq 0 (length (g_zones gr))) (g_nodes gr) in
  build_edges (mkGraph nodes (g_nodes_id gr) (g_zones gr) (g_edges gr)).

(** graph.py 823-853 (__Hi_asymmetry) *)
Definition Hi_asymmetry (G : geo) (gr : graph) (Hi : list Q) : res graph :=
  let* nodes := foldM (fun nodes i =>
      let* hi := py_nth Hi i in
      let* z := py_nth (g_zones gr) i in
      let* p := py_nth nodes (z_p z) in
      let r := hi * nd_radius p in
      let '(x, y) := get_xy G r (nd_angle p) in
      Ok (upd_nth nodes (z_p z) (set_xyr x y r)))
    (seq 0 (length (g_zones gr))) (g_nodes gr) in
  build_edges (mkGraph nodes (g_nodes_id gr) (g_zones gr) (g_edges gr)).

(** graph.py 798-821 (__etha_asymmetry); etha_zone >= 1 was checked by the validator *)
Definition etha_asymmetry (G : geo) (gr : graph) (etha : Q) (etha_zone : Z) : res graph :=
  let* z := py_nth (g_zones gr) (Z.to_nat (etha_zone - 1)) in
  let* sc := py_nth (g_nodes gr) (z_sc z) in
  let r := etha * nd_radius sc in
  let ang := nd_angle sc in
  let '(x, y) := get_xy G r ang in
  let nodes := map (fun n => if kind_eqb (nd_kind n) CBD then set_xyra x y r ang n else n) (g_nodes gr) in
  build_edges (mkGraph nodes (g_nodes_id gr) (g_zones gr) (g_edges gr)).

(** graph.py 314-390 (build_from_parameters); keyword order n, l, g, p, etha, etha_zone,
    angles, Gi, Hi *)
Definition build_from_parameters (G : geo) (P : params) : res city :=
  let* ok := parameters_validator P in
  let* cbd := new_node CBD 0 0 0 0 0 (p_p P) 0 "CBD" in
  let g0 := add_cbd empty_graph cbd in
  let* g1 := foldM (add_param_zone G (p_n P) (p_l P) (p_g P) (p_p P)) (seq 0 (Z.to_nat (p_n P))) g0 in
  let* g2 := match p_angles P with Some a => angles_asymmetry G g1 a | None => Ok g1 end in
  let* g3 := match p_Gi P with Some a => Gi_asymmetry G g2 a | None => Ok g2 end in
  let* g4 := match p_Hi P with Some a => Hi_asymmetry G g3 a | None => Ok g3 end in
  let* g5 := match p_etha P, p_etha_zone P with
             | Some e, Some z => etha_asymmetry G g4 e z
             | _, _ => Ok g4
             end in
  Ok (mkCity g5 P).

(** ** Observers *)

(** graph.py 942-976 and edge attributes: the ids of the end nodes of an edge *)
Definition edge_ends (g : graph) (e : edge) : option (Z * Z) :=
  match nth_error (g_nodes g) (e_n1 e), nth_error (g_nodes g) (e_n2 e) with
  | Some a, Some b => Some (nd_id a, nd_id b)
  | _, _ => None
  end.

(** graph.py 204-214 (edge_exist) *)
Definition edge_exist (g : graph) (i j : Z) : bool :=
  existsb (fun e => match edge_ends g e with
                    | Some (a, b) => (a =? i)%Z && (b =? j)%Z
                    | None => false
                    end) (g_edges g).

(** graph.py 473 *)
Definition euclid (G : geo) (a b : node) : Q :=
  geo_sqrt G ((nd_x a - nd_x b) * (nd_x a - nd_x b) + (nd_y a - nd_y b) * (nd_y a - nd_y b)).

(** defaultdict(lambda: defaultdict(float)) keyed by node ids *)
Definition dict2 : Type := list (Z * list (Z * Q)).
Definition dict2_set (d : dict2) (i j : Z) (v : Q) : dict2 :=
  dset Z.eqb d i (dset Z.eqb (dget0 Z.eqb [] d i) j v).
Definition dict2_get (d : dict2) (i j : Z) : option Q :=
  match dget Z.eqb d i with Some r => dget Z.eqb r j | None => None end.

(** graph.py 456-475 (get_edges_distance) *)
Definition get_edges_distance (G : geo) (g : graph) : dict2 :=
  fold_left (fun d e =>
    match nth_error (g_nodes g) (e_n1 e), nth_error (g_nodes g) (e_n2 e) with
    | Some a, Some b => dict2_set d (nd_id a) (nd_id b) (euclid G a b)
    | _, _ => d
    end) (g_edges g) [].

(** graph.py 930-940 (get_cbd) *)
Definition get_cbd (g : graph) : option node :=
  find (fun n => kind_eqb (nd_kind n) CBD) (g_nodes g).
