(** * HyperText: model of the texts of one hyperpath search

    Simplifications, valid for the whole file: those of Report.v on the text of numbers; the nodes, labels and successors
    are those of ExtGraph.v and Hyperpath.v, so a node without a stop (never in [tree_nodes]) is not met. *)
From Coq Require Import String Ascii List ZArith QArith Qabs Bool.
From Verif Require Import PyBase PyStr Graph Mode Route Pajek ExtGraph Hyperpath Assignment Report Texts.
Import ListNotations.
Local Open Scope Q_scope.

(** the nearest integer to 10000 |q|, the even one if there are two *)
Definition tenthousandths (q : Q) : Z :=
  let t := 10000 * Qabs q in
  let d := Zpos (Qden t) in
  let k := (Qnum t / d)%Z in
  let r := (2 * (Qnum t mod d))%Z in
  if (r <? d)%Z then k else if (d <? r)%Z then (k + 1)%Z else if Z.even k then k else (k + 1)%Z.
(** '{:.4f}'.format(q) *)
Definition fmt4 (q : Q) : string :=
  let k := tenthousandths q in
  ((if Qltb q 0 then "-" else "") ++ str_of_Z (k / 10000) ++ "." ++ str_of_Z (k / 1000 mod 10) ++ str_of_Z (k / 100 mod 10)
    ++ str_of_Z (k / 10 mod 10) ++ str_of_Z (k mod 10))%string.
Definition fmt4o (x : option Q) : string := match x with Some q => fmt4 q | None => "inf" end.

(** str(edge.type), extended_graph.py 98-107 *)
Definition etype_text (t : etype) : string :=
  match t with
  | ACCESS => "ExtendedEdgesType.ACCESS" | BOARDING => "ExtendedEdgesType.BOARDING"
  | ALIGHTING => "ExtendedEdgesType.ALIGHTING" | ROUTE => "ExtendedEdgesType.ROUTE"
  end.
Definition rnode_id (X : xgraph) (k : nat) : string := r_id (rn_route (rnode_at (xg_rnodes X) k)).
Definition rnode_dir (X : xgraph) (k : nat) : string := dir_text (rn_dir (rnode_at (xg_rnodes X) k)).
(** hyper_path.py 277-291: the end of an edge *)
Definition end_text (X : xgraph) (n : enode) : string :=
  match n with
  | EC c => "Citynode: " ++ city_name X c
  | ES s => "Stopnode " ++ stop_mode_name X s ++ ": " ++ stop_city_name X s
  | ER k => "Routenode " ++ rnode_id X k ++ " " ++ rnode_dir X k ++ ": " ++ rnode_city_name X k
  end%string.
(** 272-293 *)
Definition text_successors (X : xgraph) (es : list xedge) : string :=
  fold_left (fun line e => (line ++ "[" ++ etype_text (x_type e) ++ ": " ++ end_text X (x_i e) ++ " - " ++ end_text X (x_j e) ++ "] ")%string)
    es EmptyString.
(** 257-308 (string_hyperpath_graph); the keys of [label] are the nodes in the order of 218-254 *)
Definition string_hyperpath_graph (X : xgraph) (R : hresult) : string :=
  fold_left (fun line n =>
    let tail := (nl ++ tb ++ "-label: " ++ fmt2o (hr_lab R n) ++ nl ++ tb ++ "-Successor: " ++ text_successors X (hr_suc R n)
                 ++ nl ++ tb ++ "-Frequencies: " ++ fmt2 (hr_frq R n) ++ nl)%string in
    match n with
    | EC c => line ++ "City_node" ++ nl ++ tb ++ "-Graph_node_name: " ++ city_name X c ++ tail
    | ES s => line ++ "Stop_node" ++ nl ++ tb ++ "-Mode_name: " ++ stop_mode_name X s ++ nl ++ tb ++ "-Graph_node_name: " ++ stop_city_name X s ++ tail
    | ER k => line ++ "Route_node" ++ nl ++ tb ++ "-route_id: " ++ rnode_id X k ++ nl ++ tb ++ "-direction: " ++ rnode_dir X k
              ++ nl ++ tb ++ "-Graph_node_name: " ++ rnode_city_name X k ++ tail
    end%string) (tree_nodes (xg_nodes X)) ("HyperPath Graph" ++ nl)%string.

(** 366-391 (string_hyperpaths_OD) *)
Definition text_path_node (X : xgraph) (lab : enode -> option Q) (line : string) (n : enode) : string :=
  match n with
  | EC c => line ++ "[City_node " ++ city_name X c ++ ": " ++ fmt4o (lab n) ++ "]" ++ nl ++ tb ++ tb
  | ES s => line ++ "[Stop_node " ++ stop_mode_name X s ++ " - " ++ stop_city_name X s ++ ": " ++ fmt4o (lab n) ++ "]" ++ nl ++ tb ++ tb
  | ER k => line ++ "[Route_node " ++ rnode_id X k ++ " " ++ rnode_dir X k ++ " - " ++ rnode_city_name X k ++ ": " ++ fmt4o (lab n) ++ "]" ++ nl ++ tb ++ tb
  end%string.
Definition string_hyperpaths_OD (X : xgraph) (hp : list (nat * list (list enode))) (lab : enode -> option Q) : string :=
  fold_left (fun line '(s, ps) =>
    fold_left (fun line p => fold_left (text_path_node X lab) p (line ++ nl ++ tb ++ "New Path:" ++ nl ++ tb ++ tb)%string)
      ps (line ++ nl ++ stop_mode_name X s ++ " stop" ++ nl)%string) hp EmptyString.
