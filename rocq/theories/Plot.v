(** * Plot: model of what the plot functions hand to the drawing library

    graph.py 978-1048, network.py 690-815, hyper_path.py 490-559.  Simplifications, valid for the whole file: a picture is
    the graph, the positions and the calls of draw_networkx_nodes, draw_networkx_labels and draw_networkx_edges in order,
    with their nodes or edges and their colour; sizes, titles, axes, the file, and whatever the library makes of them are
    left out.  The lists x_cbd, y_cbd and so on, which are filled and never used, are left out. *)
From Coq Require Import String Ascii List ZArith QArith Bool.
From Verif Require Import PyBase PyStr Graph Mode Route Network ExtGraph Hyperpath Texts HyperText.
Import ListNotations.
Local Open Scope Q_scope.

Inductive colour : Type := Red | Blue | Purple | Yellow | Green | Orange | Lime | Aqua.
Inductive drawing (A : Type) : Type :=
| Draw_nodes (l : list A) (c : colour)
| Draw_labels
| Draw_edges (l : list (A * A)) (c : colour).
Arguments Draw_nodes {A} _ _. Arguments Draw_labels {A}. Arguments Draw_edges {A} _ _.
(** nx.DiGraph as the list of edges added to it; [position] as a default dictionary of lists *)
Record picture : Type := mkPic { pic_edges : list (Z * Z); pic_pos : list (Z * list Q); pic_draw : list (drawing Z) }.

(** graph.py 990-995, network.py 708-713: a falsy entry (missing or empty) gets x and y appended *)
Definition put_position (pos : list (Z * list Q)) (n : node) : list (Z * list Q) :=
  match dget0 Z.eqb [] pos (nd_id n) with
  | [] => dset Z.eqb (dset Z.eqb pos (nd_id n) ([] ++ [nd_x n])) (nd_id n) ([nd_x n] ++ [nd_y n])
  | _ => pos
  end.
(** graph.py 985-995, network.py 703-713 *)
Definition edges_and_positions (g : graph) : list (Z * Z) * list (Z * list Q) :=
  fold_left (fun '(es, pos) e =>
    match nth_error (g_nodes g) (e_n1 e), nth_error (g_nodes g) (e_n2 e) with
    | Some a, Some b => (es ++ [(nd_id a, nd_id b)], put_position (put_position pos a) b)
    | _, _ => (es, pos)
    end) (g_edges g) ([], []).
(** graph.py 998-1031, network.py 716-749 *)
Definition ids_of_kind (g : graph) (k : kind) : list Z := map nd_id (filter (fun n => kind_eqb (nd_kind n) k) (g_nodes g)).

(** graph.py 978-1048 (Graph.plot) *)
Definition plot_graph (g : graph) : picture :=
  let '(es, pos) := edges_and_positions g in
  mkPic es pos [Draw_nodes (ids_of_kind g Periphery) Red; Draw_nodes (ids_of_kind g Subcenter) Blue; Draw_nodes (ids_of_kind g CBD) Purple;
                Draw_labels; Draw_edges es Orange].

(** network.py 770-777 and 778-783: the loops over one sequence *)
Definition add_new (acc l : list Z) : list Z := fold_left (fun acc z => if existsb (Z.eqb z) acc then acc else acc ++ [z]) l acc.
(** network.py 752-783 *)
Definition plotted_lines (nw : network) (ids : list string) : res (list (Z * Z) * list (Z * Z) * list Z * list Z) :=
  foldM (fun '(ei, er, si, sr) rid =>
    match index_of rid (nw_ids nw) with
    | None => Err RouteIdNotFoundException
    | Some k => let* r := py_nth (nw_routes nw) k in
                Ok (ei ++ arcs_of (r_ni r), er ++ arcs_of (r_nr r), add_new si (r_si r), add_new sr (r_sr r))
    end) ids ([], [], [], []).
(** network.py 690-815 (TransportNetwork.plot) *)
Definition plot_network (nw : network) (list_routes : option (list string)) (direction : option string) : res picture :=
  let ids := match list_routes with None => nw_ids nw | Some l => l end in
  let '(es, pos) := edges_and_positions (nw_graph nw) in
  let* t := plotted_lines nw ids in
  let '(ei, er, si, sr) := t in
  let shown d := match direction with None => true | Some s => String.eqb s d end in
  Ok (mkPic (es ++ ei ++ er) pos
    ([Draw_nodes (ids_of_kind (nw_graph nw) Periphery) Red; Draw_nodes (ids_of_kind (nw_graph nw) Subcenter) Blue;
      Draw_nodes (ids_of_kind (nw_graph nw) CBD) Purple]
     ++ (if shown "I"%string then [Draw_nodes si Yellow] else []) ++ (if shown "R"%string then [Draw_nodes sr Yellow] else [])
     ++ [Draw_labels; Draw_edges es Orange]
     ++ (if shown "I"%string then [Draw_edges ei Lime] else []) ++ (if shown "R"%string then [Draw_edges er Aqua] else []))).

(** hyper_path.py 490-559 (HyperPath.plot): nodes are their names; the positions come from nx.spring_layout *)
Definition plot_name (X : xgraph) (n : enode) : string :=
  match n with
  | EC c => city_name X c
  | ES s => stop_mode_name X s ++ " - " ++ stop_city_name X s
  | ER k => rnode_id X k ++ " " ++ rnode_dir X k ++ " - " ++ rnode_city_name X k
  end%string.
(** the local lists city_nodes, stop_nodes, route_nodes, edges_graph and prev_node *)
Record names : Type := mkNames { nm_city : list string; nm_stop : list string; nm_route : list string; nm_edges : list (string * string) }.
Definition plot_step (X : xgraph) (st : names * option string) (n : enode) : names * option string :=
  let '(N, prev) := st in
  let s := plot_name X n in
  let es := match prev with None => nm_edges N | Some p => nm_edges N ++ [(p, s)] end in
  (match n with
   | EC _ => mkNames (nm_city N ++ [s]) (nm_stop N) (nm_route N) es
   | ES _ => mkNames (nm_city N) (nm_stop N ++ [s]) (nm_route N) es
   | ER _ => mkNames (nm_city N) (nm_stop N) (nm_route N ++ [s]) es
   end, Some s).
Definition plot_hyperpaths (X : xgraph) (hp : list (nat * list (list enode))) : list (drawing string) :=
  let N := fold_left (fun N '(_, ps) => fold_left (fun N p => fst (fold_left (plot_step X) p (N, None))) ps N) hp (mkNames [] [] [] []) in
  [Draw_nodes (nm_city N) Yellow; Draw_nodes (nm_stop N) Red; Draw_nodes (nm_route N) Green; Draw_labels; Draw_edges (nm_edges N) Orange].
