(** * Texts: model of the texts of the extended graph, the hyperpaths and the assignment

    Simplifications, valid for the whole file: those of Report.v on the text of numbers; the objects are those of
    ExtGraph.v, Hyperpath.v and Assignment.v. *)
From Coq Require Import String Ascii List ZArith QArith Bool.
From Verif Require Import PyBase PyStr Graph Mode Route Pajek ExtGraph Hyperpath Assignment Report.
Import ListNotations.
Local Open Scope Q_scope.

Definition tb : string := String (ascii_of_nat 9) EmptyString.
(** the strings "I" and "R" of RouteNode.direction *)
Definition dir_text (d : dir) : string := match d with DI => "I" | DR => "R" end.
(** stop_node.mode.name, city_node.graph_node.name *)
Definition stop_mode_name (X : xgraph) (s : nat) : string := m_name (sn_mode (stop_at (xg_stops X) s)).
Definition city_name (X : xgraph) (c : nat) : string := nd_name (gnode (xg_graph X) c).
Definition stop_city_name (X : xgraph) (s : nat) : string := city_name X (sn_city (stop_at (xg_stops X) s)).
Definition rnode_city_name (X : xgraph) (k : nat) : string := nd_name (rn_gnode (xg_graph X) (xg_stops X) (xg_rnodes X) k).
(** '{:.2f}' of a float that may be float('inf') *)
Definition fmt2o (x : option Q) : string := match x with Some q => fmt2 q | None => "inf" end.

(** assignment.py 249-254 and 257-262: the loops over the directions and the stops of a row *)
Definition text_rows (X : xgraph) (line : string) (rows : list (dir * list (nat * Q))) : string :=
  fold_left (fun line '(d, row) =>
    fold_left (fun line '(s, q) =>
      (line ++ nl ++ tb ++ tb ++ tb ++ "Stop " ++ stop_mode_name X s ++ "-" ++ stop_city_name X s ++ ": " ++ fmt2 q ++ "[pax/veh]")%string)
      row (line ++ nl ++ tb ++ tb ++ "Direction: " ++ dir_text d)%string) rows line.
(** assignment.py 239-264 (str_boarding_alighting); v[route_id] of a missing route is an empty default dictionary *)
Definition str_boarding_alighting (X : xgraph) (z v : tab) : string :=
  fold_left (fun line '(r, rows) =>
    text_rows X (text_rows X (line ++ nl ++ "New route: " ++ r ++ nl ++ tb ++ "Boarding:") rows ++ nl ++ tb ++ "Alighting:") (dget0 String.eqb [] v r))%string
    z (nl ++ "Boarding and Alighting information:")%string.

(** hyper_path.py 463-488 (string_all_hyperpaths).  The dictionaries are read in the order of the OD pairs with trips:
    get_all_hyperpaths fills them in that order, and the rows of a matrix have different origins.  An entry whose
    origin or destination is None has no stops to print (stops_at), so the name of None is never asked for. *)
Definition opt_city_name (X : xgraph) (n : option enode) : string := match n with Some (EC c) => city_name X c | _ => "" end.
Definition string_all_hyperpaths (X : xgraph) (es : list od_entry) : string :=
  fold_left (fun line e =>
    fold_left (fun line '(s, ps) =>
      (line ++ "origin: " ++ opt_city_name X (od_o e) ++ ", destination: " ++ opt_city_name X (od_d e) ++ ", vij: " ++ fmt2 (od_v e) ++ nl
       ++ tb ++ " mode: " ++ stop_mode_name X s ++ ", label: " ++ fmt2o (hr_lab (od_res e) (ES s)) ++ " [EIV], n° elemental paths: "
       ++ str_of_Z (Z.of_nat (length (ps : list (list enode)))) ++ ", n° elemental paths (successors): "
       ++ str_of_Z (Z.of_nat (length (hr_suc (od_res e) (ES s)))) ++ nl)%string) (od_paths e) line) es nl.

(** extended_graph.py 170-213 (__str__) *)
Definition edges_between (X : xgraph) (i j : enode) : list xedge :=
  filter (fun e => enode_eqb (x_i e) i && enode_eqb (x_j e) j) (xg_edges X).
(** 179-181 *)
Definition text_access (X : xgraph) (c s : nat) (line : string) : string :=
  fold_left (fun line e => (line ++ tb ++ "Access edge" ++ nl ++ tb ++ "-Access time: " ++ fmt2 (x_t e) ++ " [min]" ++ nl)%string)
    (edges_between X (EC c) (ES s)) line.
(** 187-189 *)
Definition text_boarding (X : xgraph) (s k : nat) (line : string) : string :=
  fold_left (fun line e =>
    (line ++ tb ++ tb ++ tb ++ "Boarding edge" ++ nl ++ tb ++ tb ++ tb ++ "-Frequency: " ++ fmt2o (x_f e) ++ " [veh/h]" ++ nl)%string)
    (edges_between X (ES s) (ER k)) line.
(** 192-194 *)
Definition text_alighting (X : xgraph) (s k : nat) (line : string) : string :=
  fold_left (fun line e =>
    (line ++ tb ++ tb ++ tb ++ "Alighting edge" ++ nl ++ tb ++ tb ++ tb ++ "-Penalty transfer: " ++ fmt2 (x_t e * 60) ++ " [min]" ++ nl)%string)
    (edges_between X (ER k) (ES s)) line.
(** 197-212; the route node printed first has the text 0.00, the others '{}' of the time of the first edge found *)
Definition text_route_node (F : numfmt) (X : xgraph) (k : nat) (line : string) : string :=
  let rn := rnode_at (xg_rnodes X) k in
  let t4 := (tb ++ tb ++ tb ++ tb)%string in
  let print prev time := (line ++ t4 ++ "Route node" ++ nl ++ t4 ++ "-Route_id: " ++ r_id (rn_route rn) ++ nl ++ t4 ++ "-Direction: "
     ++ dir_text (rn_dir rn) ++ nl ++ t4 ++ "-Previous stop: " ++ prev ++ nl ++ t4 ++ "-Time to previous stop: " ++ time ++ " [hrs]" ++ nl)%string in
  match rn_prev rn with
  | None => print "no data"%string (fmt2 0)
  | Some p => print (rnode_city_name X p) (nf_show F (match edges_between X (ER p) (ER k) with [] => 0 | e :: _ => x_t e end))
  end.
(** 175-213 *)
Definition text_extended_graph (F : numfmt) (X : xgraph) : string :=
  fold_left (fun line '(c, stops) =>
    fold_left (fun line '(s, ks) =>
      fold_left (fun line k => text_route_node F X k (text_alighting X s k (text_boarding X s k line)))
        ks (text_access X c s line ++ tb ++ tb ++ "Stop node" ++ nl ++ tb ++ tb ++ "-Mode name: " ++ stop_mode_name X s ++ nl)%string)
      stops (line ++ "City node" ++ nl ++ "-Graph node name: " ++ city_name X c ++ nl)%string)
    (xg_nodes X) EmptyString.
