(** * ExtGraph: model of /repo/sidermit/optimization/preoptimization/extended_graph.py

    Simplifications, valid for the whole file:
    - node objects are referred to by their position in the list in which the code collects them:
      [EC k] is the CityNode of the k-th graph node, [ES k] the k-th StopNode, [ER k] the k-th
      element of the list returned by build_route_nodes (objects have no __eq__, so == is identity);
    - [str(a) == str(b)] on int ids is [a =? b] (str is injective on ints: PyStrFacts.str_of_Z_inj);
    - the square root is the oracle [geo_sqrt] of Graph.v;
    - following a reference cannot fail: it is [nth] with an arbitrary default, and every index used
      is proved to be in range;
    - __str__ (170-213) is in Texts.v. *)
From Coq Require Import String List ZArith QArith Bool.
From Verif Require Import PyBase PyStr Graph Mode Route.
Import ListNotations.
Local Open Scope Q_scope.

Inductive dir : Type := DI | DR.
Definition dir_eqb (a b : dir) : bool := match a, b with DI, DI | DR, DR => true | _, _ => false end.

(** lines 27-76: references to the nodes *)
Inductive enode : Type := EC (k : nat) | ES (k : nat) | ER (k : nat).
Definition enode_eqb (a b : enode) : bool :=
  match a, b with
  | EC i, EC j | ES i, ES j | ER i, ER j => Nat.eqb i j
  | _, _ => false
  end.
(** 49-59: StopNode (its id is its position) *)
Record stopnode : Type := mkStop { sn_mode : mode; sn_city : nat }.
(** 62-76: RouteNode; [rn_stop] is None when no StopNode was found (line 320) *)
Record rnode : Type := mkRnode {
  rn_id : nat; rn_route : route; rn_dir : dir; rn_stop : option nat; rn_prev : option nat
}.
(** 98-107 *)
Inductive etype : Type := ACCESS | BOARDING | ALIGHTING | ROUTE.
Definition etype_eqb (a b : etype) : bool :=
  match a, b with ACCESS, ACCESS | BOARDING, BOARDING | ALIGHTING, ALIGHTING | ROUTE, ROUTE => true | _, _ => false end.
(** 79-95: ExtendedEdge; [x_f] is None for float('inf') *)
Record xedge : Type := mkX { x_type : etype; x_id : nat; x_i : enode; x_j : enode; x_t : Q; x_f : option Q }.
(** identity of edge objects: ids are positions in the list of the edges of one type *)
Definition xedge_eqb (a b : xedge) : bool := etype_eqb (x_type a) (x_type b) && Nat.eqb (x_id a) (x_id b).

(** dic[CityNode][StopNode] = [RouteNode] *)
Definition xtree : Type := list (nat * list (nat * list nat)).
Record xgraph : Type := mkXgraph {
  xg_graph : graph;
  xg_stops : list stopnode;
  xg_rnodes : list rnode;
  xg_nodes : xtree;
  xg_edges : list xedge
}.

Definition dflt_node : node := mkNode CBD 0 0 0 0 0 0 0 "".
Definition dflt_mode : mode := mkMode 0 "" 0 0 0 0 0 0 0 0 0 0 0 0.
Definition dflt_stop : stopnode := mkStop dflt_mode 0.
Definition dflt_route : route := mkRoute "" dflt_mode [] [] [] [] CUSTOM.
Definition dflt_rnode : rnode := mkRnode 0 dflt_route DI None None.
Definition gnode (g : graph) (k : nat) : node := nth k (g_nodes g) dflt_node.

Definition nodes_of (r : route) (d : dir) : list Z := match d with DI => r_ni r | DR => r_nr r end.
Definition stops_of (r : route) (d : dir) : list Z := match d with DI => r_si r | DR => r_sr r end.

(** 242-278 (build_tree_graph): the keys tree_graph[city_node][mode]; the lists of routes stored
    under them are never read afterwards and are dropped.  229-240 (build_city_nodes): one CityNode
    per graph node, in order, [EC k]. *)
Definition tree_touch (t : list (nat * list mode)) (c : nat) (m : mode) : list (nat * list mode) :=
  let ms := dget0 Nat.eqb [] t c in
  dset Nat.eqb t c (if existsb (fun m' => mode_eqb m' m) ms then ms else ms ++ [m]).
Definition build_tree_graph (routes : list route) (g : graph) : list (nat * list mode) :=
  fold_left (fun t c =>
    fold_left (fun t r =>
      fold_left (fun t stop => if (nd_id (gnode g c) =? stop)%Z then tree_touch t c (r_mode r) else t)
        (r_si r ++ r_sr r) t) routes t)
    (seq 0 (length (g_nodes g))) [].

(** 280-296 (build_stop_nodes) *)
Definition build_stop_nodes (t : list (nat * list mode)) : list stopnode :=
  fold_left (fun l '(c, ms) =>
    fold_left (fun l m =>
      if existsb (fun s => mode_eqb (sn_mode s) m && Nat.eqb (sn_city s) c) l then l else l ++ [mkStop m c]) ms l) t [].

(** 321-324 *)
Fixpoint find_stop (g : graph) (m : mode) (stop : Z) (l : list stopnode) (k : nat) : option nat :=
  match l with
  | [] => None
  | s :: l' => if mode_eqb (sn_mode s) m && (nd_id (gnode g (sn_city s)) =? stop)%Z then Some k
               else find_stop g m stop l' (S k)
  end.

(** 319-343 and 348-372: the route nodes of one direction; [base] is len(route_nodes).  In a
    circular route the first node is dropped and the second gets the last as previous node, so the
    position of nodes[k] in the final list is base + k - 1. *)
Definition dir_nodes (g : graph) (stops : list stopnode) (r : route) (d : dir) (base : nat) : list rnode :=
  let l := stops_of r d in
  let mk k stop prev := mkRnode (base + k) r d (find_stop g (r_mode r) stop stops 0) prev in
  match r_type r with
  | CIRCULAR =>
      map (fun '(k, stop) => mk (S k) stop (Some (match k with O => base + (length l - 2) | S k' => base + k' end))%nat)
        (combine (seq 0 (length l - 1)) (tl l))
  | _ =>
      map (fun '(k, stop) => mk k stop (match k with O => None | S k' => Some (base + k')%nat end))
        (combine (seq 0 (length l)) l)
  end.
(** 298-374 (build_route_nodes) *)
Definition build_route_nodes (g : graph) (routes : list route) (stops : list stopnode) : list rnode :=
  fold_left (fun acc r =>
    let acc := acc ++ dir_nodes g stops r DI (length acc) in
    acc ++ dir_nodes g stops r DR (length acc)) routes [].

(** 376-390 (build_extended_graph_nodes); [stop_node.city_node] on None raises AttributeError *)
Definition build_extended_graph_nodes (stops : list stopnode) (rns : list rnode) : res xtree :=
  foldM (fun t '(k, rn) =>
    match rn_stop rn with
    | None => Err AttributeError
    | Some s =>
        let c := sn_city (nth s stops dflt_stop) in
        let d := dget0 Nat.eqb [] t c in
        Ok (dset Nat.eqb t c (dset Nat.eqb d s (dget0 Nat.eqb [] d s ++ [k])))
    end) (combine (seq 0 (length rns)) rns) [].

(** the triples (city_node, stop_node, route_node) in the order of the three nested loops *)
Definition tree_pairs (t : xtree) : list (nat * nat) :=
  flat_map (fun '(c, d) => map (fun '(s, _) => (c, s)) d) t.
Definition tree_triples (t : xtree) : list (nat * nat * nat) :=
  flat_map (fun '(c, d) => flat_map (fun '(s, l) => map (fun k => (c, s, k)) l) d) t.

(** edges with ids len(list) *)
Definition number (ty : etype) (l : list (enode * enode * Q * option Q)) : list xedge :=
  map (fun '(k, (i, j, t, f)) => mkX ty k i j t f) (combine (seq 0 (length l)) l).

Definition stop_at (stops : list stopnode) (s : nat) : stopnode := nth s stops dflt_stop.
Definition rnode_at (rns : list rnode) (k : nat) : rnode := nth k rns dflt_rnode.
(** route_node.stop_node; after build_extended_graph_nodes it is never None *)
Definition rn_stop_at (rns : list rnode) (k : nat) : nat :=
  match rn_stop (rnode_at rns k) with Some s => s | None => O end.
(** route_node.stop_node.city_node.graph_node *)
Definition rn_gnode (g : graph) (stops : list stopnode) (rns : list rnode) (k : nat) : node :=
  gnode g (sn_city (stop_at stops (rn_stop_at rns k))).

(** 392-408 (build_access_edges) *)
Definition build_access_edges (stops : list stopnode) (t : xtree) : list xedge :=
  number ACCESS (flat_map (fun '(c, s) =>
    let ta := m_tat (sn_mode (stop_at stops s)) / 60 in
    [(EC c, ES s, ta, None); (ES s, EC c, ta, None)]) (tree_pairs t)).

(** the element tests node_sequence[len(node_sequence) - 1] and node_sequence[0] *)
Definition py_last (l : list Z) : res Z :=
  match rev l with [] => Err IndexError | x :: _ => Ok x end.
Definition py_first (l : list Z) : res Z :=
  match l with [] => Err IndexError | x :: _ => Ok x end.

(** 410-444 (build_boarding_edges) *)
Definition build_boarding_edges (g : graph) (stops : list stopnode) (rns : list rnode) (t : xtree) (freq : list (string * Q))
  : res (list xedge) :=
  let* l := foldM (fun acc '(c, s, k) =>
    let rn := rnode_at rns k in
    let r := rn_route rn in
    let add := let* f := qdiv (dget0 String.eqb 0 freq (r_id r)) (m_d (r_mode r)) in
               Ok (acc ++ [(ES s, ER k, 0, Some f)]) in
    if is_circular (r_type r) then add
    else
      let* z := py_last (nodes_of r (rn_dir rn)) in
      if (nd_id (rn_gnode g stops rns k) =? z)%Z then Ok acc else add) (tree_triples t) [] in
  Ok (number BOARDING l).

(** 446-479 (build_alighting_edges) *)
Definition build_alighting_edges (g : graph) (stops : list stopnode) (rns : list rnode) (t : xtree) (TP : Q)
  : res (list xedge) :=
  let spt := TP / 60 in
  let* l := foldM (fun acc '(c, s, k) =>
    let rn := rnode_at rns k in
    let r := rn_route rn in
    let add := Ok (acc ++ [(ER k, ES s, spt, None)]) in
    if is_circular (r_type r) then add
    else
      let* z := py_first (nodes_of r (rn_dir rn)) in
      if (nd_id (rn_gnode g stops rns k) =? z)%Z then Ok acc else add) (tree_triples t) [] in
  Ok (number ALIGHTING l).

(** 535, 542: distance between two points *)
Definition pdist (G : geo) (a b : Q * Q) : Q :=
  geo_sqrt G ((fst a - fst b) * (fst a - fst b) + (snd a - snd b) * (snd a - snd b)).
Definition pos (n : node) : Q * Q := (nd_x n, nd_y n).

(** 524-545: the distance loop over the node sequence; [served] are the graph nodes of lines 490-493 *)
Fixpoint ride_distance (G : geo) (served : list node) (from to : Z) (final : Q * Q)
  (l : list Z) (count : bool) (prev : Q * Q) (distance : Q) : Q :=
  match l with
  | [] => distance
  | z :: l' =>
      if (z =? from)%Z then ride_distance G served from to final l' true prev distance
      else if (z =? to)%Z then distance + pdist G prev final
      else if count then
        match find (fun n => (z =? nd_id n)%Z) served with
        | Some n => ride_distance G served from to final l' count (pos n) (distance + pdist G prev (pos n))
        | None => ride_distance G served from to final l' count prev distance
        end
      else ride_distance G served from to final l' count prev distance
  end.

(** 481-552 (build_route_edges) *)
Definition build_route_edges (G : geo) (g : graph) (stops : list stopnode) (rns : list rnode) (t : xtree)
  : res (list xedge) :=
  let served := map (fun '(c, _) => gnode g c) t in
  let* l := foldM (fun acc '(c, s, k) =>
    let rn := rnode_at rns k in
    match rn_prev rn with
    | None => Ok acc
    | Some p =>
        let v := m_v (sn_mode (stop_at stops (rn_stop_at rns k))) in
        let n1 := rn_gnode g stops rns k in
        let n2 := rn_gnode g stops rns p in
        let d := ride_distance G served (nd_id n2) (nd_id n1) (pos n1)
                   (nodes_of (rn_route rn) (rn_dir rn)) false (pos n2) 0 in
        let* tm := qdiv d v in
        Ok (acc ++ [(ER p, ER k, tm, None)])
    end) (tree_triples t) [] in
  Ok (number ROUTE l).

(** 129-133: default frequencies; later routes overwrite earlier ones with the same id *)
Definition default_frequencies (routes : list route) : list (string * Q) :=
  fold_left (fun d r => dset String.eqb d (r_id r) (m_fini (r_mode r))) routes [].

(** 117-168 (__init__) *)
Definition build_ext (G : geo) (g : graph) (routes : list route) (TP : Q) (freq : option (list (string * Q))) : res xgraph :=
  let freq := match freq with Some f => f | None => default_frequencies routes end in
  let stops := build_stop_nodes (build_tree_graph routes g) in
  let rns := build_route_nodes g routes stops in
  let* t := build_extended_graph_nodes stops rns in
  let ea := build_access_edges stops t in
  let* eb := build_boarding_edges g stops rns t freq in
  let* el := build_alighting_edges g stops rns t TP in
  let* er := build_route_edges G g stops rns t in
  Ok (mkXgraph g stops rns t (ea ++ eb ++ el ++ er)).
