(** * ResultsSpec: what the reports about an optimised network should say *)
From Coq Require Import String List ZArith QArith Bool.
From Verif Require Import PyBase Mode Route Network RouteSpec Graph Demand ExtGraph ExtSpec Hyperpath HyperSpec Assignment FlowSpec Costs UsersCost Optimizer.
Import ListNotations.
Local Open Scope Q_scope.

(** the lines of a mode that run *)
Definition running (rs : list route) (f : fdict) (m : mode) : list route :=
  filter (fun r => Qltb 0 (freq f (r_id r)) && (m_ref (r_mode r) =? m_ref m)%Z) rs.
(** [l] reports [h] for each mode of a line that runs, and for no other mode, once each *)
Definition per_mode (rs : list route) (f : fdict) (h : mode -> Q -> Prop) (l : list (mode * Q)) : Prop :=
  NoDup (map (fun p => m_ref (fst p)) l) /\
  (forall m, (exists p, In p l /\ m_ref (fst p) = m_ref m) <-> (exists r, In r (running rs f m))) /\
  (forall m q, In (m, q) l -> h m q).

(** a row for each section of the sequence of nodes, with a load that is not negative *)
Definition sections_of (nodes : list Z) (l : list (Z * Z * Q)) : Prop :=
  map fst l = arcs_of nodes /\ forall a q, In (a, q) l -> 0 <= q.

(** passengers of a table that belong to a route and direction at a node of the city *)
Definition at_node (X : xgraph) (t : tab) (r : string) (d : dir) (n : Z) : Q :=
  Qsumf (fun s => match stop_place X s with Some (z, _) => if (z =? n)%Z then tget t r d s else 0 | None => 0 end) (seq 0 (length (xg_stops X))).
(** the last node of a sequence at which the direction stops *)
Definition last_stop (vs nodes : list Z) : option Z := find (fun n => existsb (Z.eqb n) vs) (rev nodes).
(** the frequencies suit the optimiser that the report builds: see [flow_input] *)
Definition loaded (B : problem) (f : fdict) (o : optimizer) : Prop :=
  flow_input (pb_geo B) (pb_graph B) (pb_routes B) (q_pt (pb_pass B)) (Some (o_f o)) (o_X o) (pb_pass B) (dm_matrix (pb_demand B)) (pb_fuel B) (o_es o) f.
(** an open line: no node twice, no stop twice, and the stops are met in the order of the nodes *)
Definition open_line (r : route) : Prop := forall d, NoDup (nodes_of r d) /\ NoDup (visits r d) /\ subseq (visits r d) (nodes_of r d).
