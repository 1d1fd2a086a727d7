(** * TextSpec: what the texts of the extended graph, the hyperpaths and the assignment should say *)
From Coq Require Import String Ascii List ZArith QArith Bool.
From Verif Require Import PyBase PyStr Graph Mode Route Pajek ExtGraph Hyperpath Assignment ReportSpec ExtSpec.
Import ListNotations.
Local Open Scope Q_scope.

(** a line that is indented by tabs *)
Fixpoint indented (n : nat) (s : string) : string := match n with O => s | S n' => tabbed (indented n' s) end.
(** a line "label number unit" *)
Definition measured (label unit : string) (line : string) (q : Q) : Prop := exists s, line = (label ++ s ++ unit)%string /\ shows s q.
Definition direction_name (d : dir) : string := match d with DI => "I" | DR => "R" end.

(** mode and city node of a stop: "mode-node" *)
Definition stop_names (X : xgraph) (s : nat) (mode_name node_name : string) : Prop :=
  exists st nd, nth_error (xg_stops X) s = Some st /\ nth_error (g_nodes (xg_graph X)) (sn_city st) = Some nd /\
    m_name (sn_mode st) = mode_name /\ nd_name nd = node_name.
(** no name has a line break *)
Definition plain_names (X : xgraph) : Prop :=
  (forall nd, In nd (g_nodes (xg_graph X)) -> free_of [newline] (nd_name nd)) /\
  (forall st, In st (xg_stops X) -> free_of [newline] (m_name (sn_mode st))) /\
  (forall rn, In rn (xg_rnodes X) -> free_of [newline] (r_id (rn_route rn))).

(** ** boardings and alightings *)
Definition stop_line (X : xgraph) (line : string) (sq : nat * Q) : Prop :=
  exists m n, stop_names X (fst sq) m n /\ measured (indented 3 ("Stop " ++ m ++ "-" ++ n ++ ": ")) "[pax/veh]" line (snd sq).
Definition direction_block (X : xgraph) (block : list string) (row : dir * list (nat * Q)) : Prop :=
  exists ls, block = indented 2 ("Direction: " ++ direction_name (fst row)) :: ls /\ Forall2 (stop_line X) ls (snd row).
Definition table_lines (X : xgraph) (ls : list string) (rows : list (dir * list (nat * Q))) : Prop :=
  exists blocks, ls = concat blocks /\ Forall2 (direction_block X) blocks rows.
(** a route: its boardings, then its alightings in the table [v] *)
Definition route_block (X : xgraph) (v : tab) (block : list string) (row : string * list (dir * list (nat * Q))) : Prop :=
  exists zs vs, block = ["New route: " ++ fst row; indented 1 "Boarding:"]%string ++ zs ++ [indented 1 "Alighting:"] ++ vs /\
    table_lines X zs (snd row) /\ table_lines X vs (dget0 String.eqb [] v (fst row)).
(** the stops of a table are stops of the extended graph, at nodes of the city *)
Definition stops_known (X : xgraph) (t : tab) : Prop := forall r rows d row s q, In (r, rows) t -> In (d, row) rows -> In (s, q) row -> exists m n, stop_names X s m n.

(** ** the summary of the hyperpaths: two lines for each pair with trips and each stop of its origin with a path *)
Definition hyper_lines (X : xgraph) (block : list string) (es : od_entry * (nat * list (list enode))) : Prop :=
  exists o d no nd v m lab ln, od_o (fst es) = Some (EC o) /\ od_d (fst es) = Some (EC d) /\
    nth_error (g_nodes (xg_graph X)) o = Some no /\ nth_error (g_nodes (xg_graph X)) d = Some nd /\
    hr_lab (od_res (fst es)) (ES (fst (snd es))) = Some lab /\ stop_names X (fst (snd es)) m (nd_name no) /\
    shows v (od_v (fst es)) /\ shows ln lab /\
    block = ["origin: " ++ nd_name no ++ ", destination: " ++ nd_name nd ++ ", vij: " ++ v;
             tabbed (" mode: " ++ m ++ ", label: " ++ ln ++ " [EIV], n° elemental paths: " ++ str_of_Z (Z.of_nat (length (snd (snd es))))
                     ++ ", n° elemental paths (successors): " ++ str_of_Z (Z.of_nat (length (hr_suc (od_res (fst es)) (ES (fst (snd es)))))))]%string.

(** ** the extended graph *)
(** two lines about an edge, if there is one *)
Definition edge_lines (offered : Prop) (name label unit : string) (ls : list string) (q : Q) : Prop :=
  (offered /\ exists line, ls = [indented 3 name; line] /\ measured (indented 3 label) unit line q) \/ (~ offered /\ ls = []).
(** the time of the edge from a route node to the next *)
Definition ride_time (X : xgraph) (p k : nat) (t : Q) : Prop :=
  exists e, In e (xg_edges X) /\ x_type e = ROUTE /\ x_i e = ER p /\ x_j e = ER k /\ x_t e = t.
Definition route_node_block (F : numfmt) (rs : list route) (TP : Q) (fr : option (list (string * Q))) (X : xgraph) (block : list string) (k : nat) : Prop :=
  exists rn bs als prev time, nth_error (xg_rnodes X) k = Some rn /\
    block = bs ++ als ++ [indented 4 "Route node"; indented 4 ("-Route_id: " ++ r_id (rn_route rn)); indented 4 ("-Direction: " ++ direction_name (rn_dir rn));
      indented 4 ("-Previous stop: " ++ prev); indented 4 ("-Time to previous stop: " ++ time ++ " [hrs]")]%string /\
    edge_lines (can_board X rn) "Boarding edge" "-Frequency: " " [veh/h]" bs (route_frequency rs fr (r_id (rn_route rn)) / m_d (r_mode (rn_route rn))) /\
    edge_lines (can_alight X rn) "Alighting edge" "-Penalty transfer: " " [min]" als TP /\
    match rn_prev rn with
    | None => prev = "no data"%string /\ shows time 0
    | Some p => exists rp s m t, nth_error (xg_rnodes X) p = Some rp /\ rn_stop rp = Some s /\ stop_names X s m prev /\ ride_time X p k t /\ time = nf_show F t
    end.
(** the access time is shown in hours *)
Definition stop_block (F : numfmt) (rs : list route) (TP : Q) (fr : option (list (string * Q))) (X : xgraph) (c : nat) (block : list string) (sk : nat * list nat) : Prop :=
  exists st line rbs, nth_error (xg_stops X) (fst sk) = Some st /\ sn_city st = c /\
    block = [indented 1 "Access edge"; line; indented 2 "Stop node"; indented 2 ("-Mode name: " ++ m_name (sn_mode st))] ++ concat rbs /\
    measured (indented 1 "-Access time: ") " [min]" line (m_tat (sn_mode st) / 60) /\
    Forall2 (route_node_block F rs TP fr X) rbs (snd sk) /\
    (forall k, In k (snd sk) -> exists rn, nth_error (xg_rnodes X) k = Some rn /\ rn_stop rn = Some (fst sk)).
Definition city_block (F : numfmt) (rs : list route) (TP : Q) (fr : option (list (string * Q))) (X : xgraph) (block : list string) (cs : nat * list (nat * list nat)) : Prop :=
  exists nd sbs, nth_error (g_nodes (xg_graph X)) (fst cs) = Some nd /\
    block = ["City node"; "-Graph node name: " ++ nd_name nd]%string ++ concat sbs /\ Forall2 (stop_block F rs TP fr X (fst cs)) sbs (snd cs).
