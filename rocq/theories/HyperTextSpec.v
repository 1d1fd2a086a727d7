(** * HyperTextSpec: what the texts of one hyperpath search should say *)
From Coq Require Import String Ascii List ZArith QArith Qabs Bool.
From Verif Require Import PyBase PyStr Graph Mode Route Pajek ExtGraph Hyperpath ReportSpec ExtSpec TextSpec.
Import ListNotations.
Local Open Scope Q_scope.

(** a number with four decimals: an optional sign, digits, a point and four digits *)
Definition read_abs4 (s : string) : option Q :=
  match split_on "." s with
  | [a; String c (String d (String e (String f EmptyString)))] =>
      match int_of_str a, digit_val c, digit_val d, digit_val e, digit_val f with
      | Some n, Some x, Some y, Some z, Some w => Some (inject_Z n + (1000 * x + 100 * y + 10 * z + w # 10000))
      | _, _, _, _, _ => None
      end
  | _ => None
  end.
Definition read4 (s : string) : option Q :=
  match s with
  | String c t => if Ascii.eqb c "-" then option_map Qopp (read_abs4 t) else read_abs4 s
  | EmptyString => None
  end.
(** the text shows the number to the nearest ten-thousandth, resp. hundredth; an unreachable node has the label "inf" *)
Definition shows4 (s : string) (q : Q) : Prop := exists q', read4 s = Some q' /\ Qabs (q' - q) <= 1 # 20000.
Definition shows4_label (s : string) (x : option Q) : Prop := match x with Some q => shows4 s q | None => s = "inf"%string end.
Definition shows_label (s : string) (x : option Q) : Prop := match x with Some q => shows s q | None => s = "inf"%string end.

(** the name of a city node; those of a stop are [stop_names]; a place of a line has its route, its direction and the
    name of its node *)
Definition city_named (X : xgraph) (c : nat) (name : string) : Prop := exists nd, nth_error (g_nodes (xg_graph X)) c = Some nd /\ nd_name nd = name.
Definition place_names (X : xgraph) (k : nat) (id dirn name : string) : Prop :=
  exists rn s m, nth_error (xg_rnodes X) k = Some rn /\ r_id (rn_route rn) = id /\ direction_name (rn_dir rn) = dirn /\ rn_stop rn = Some s /\ stop_names X s m name.
(** how a node is written at an end of a successor *)
Definition end_name (X : xgraph) (n : enode) (t : string) : Prop :=
  match n with
  | EC c => exists a, city_named X c a /\ t = "Citynode: " ++ a
  | ES s => exists m a, stop_names X s m a /\ t = "Stopnode " ++ m ++ ": " ++ a
  | ER k => exists i d a, place_names X k i d a /\ t = "Routenode " ++ i ++ " " ++ d ++ ": " ++ a
  end%string.
Definition kind_name (t : etype) : string :=
  match t with ACCESS => "ACCESS" | BOARDING => "BOARDING" | ALIGHTING => "ALIGHTING" | ROUTE => "ROUTE" end.
Definition successor_text (X : xgraph) (t : string) (e : xedge) : Prop :=
  exists a b, end_name X (x_i e) a /\ end_name X (x_j e) b /\ t = ("[ExtendedEdgesType." ++ kind_name (x_type e) ++ ": " ++ a ++ " - " ++ b ++ "] ")%string.
(** the first lines about a node: its kind and its names *)
Definition node_head (X : xgraph) (n : enode) (ls : list string) : Prop :=
  match n with
  | EC c => exists a, city_named X c a /\ ls = ["City_node"; tabbed ("-Graph_node_name: " ++ a)]
  | ES s => exists m a, stop_names X s m a /\ ls = ["Stop_node"; tabbed ("-Mode_name: " ++ m); tabbed ("-Graph_node_name: " ++ a)]
  | ER k => exists i d a, place_names X k i d a /\
      ls = ["Route_node"; tabbed ("-route_id: " ++ i); tabbed ("-direction: " ++ d); tabbed ("-Graph_node_name: " ++ a)]
  end%string.
(** then its label, its successors and its frequency *)
Definition node_block (X : xgraph) (R : hresult) (block : list string) (n : enode) : Prop :=
  exists hd l sucs f, node_head X n hd /\ shows_label l (hr_lab R n) /\ Forall2 (successor_text X) sucs (hr_suc R n) /\ shows f (hr_frq R n) /\
    block = hd ++ [tabbed ("-label: " ++ l); tabbed ("-Successor: " ++ String.concat "" sucs); tabbed ("-Frequencies: " ++ f)].

(** a node of a path, with its label *)
Definition path_line (X : xgraph) (lab : enode -> option Q) (line : string) (n : enode) : Prop :=
  exists l, shows4_label l (lab n) /\
  match n with
  | EC c => exists a, city_named X c a /\ line = indented 2 ("[City_node " ++ a ++ ": " ++ l ++ "]")
  | ES s => exists m a, stop_names X s m a /\ line = indented 2 ("[Stop_node " ++ m ++ " - " ++ a ++ ": " ++ l ++ "]")
  | ER k => exists i d a, place_names X k i d a /\ line = indented 2 ("[Route_node " ++ i ++ " " ++ d ++ " - " ++ a ++ ": " ++ l ++ "]")
  end%string.
Definition path_block (X : xgraph) (lab : enode -> option Q) (block : list string) (p : list enode) : Prop :=
  exists ls, Forall2 (path_line X lab) ls p /\ block = indented 1 "New Path:" :: ls ++ [indented 2 ""].
Definition stop_paths (X : xgraph) (lab : enode -> option Q) (block : list string) (sp : nat * list (list enode)) : Prop :=
  exists m a pbs, stop_names X (fst sp) m a /\ Forall2 (path_block X lab) pbs (snd sp) /\ block = [m ++ " stop"; ""]%string ++ concat pbs.
