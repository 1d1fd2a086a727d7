(** * ExtSpec: what the extended graph of a city and a list of routes should contain *)
From Coq Require Import String List ZArith QArith Bool.
From Verif Require Import PyBase Graph Mode Route ExtGraph.
Import ListNotations.
Local Open Scope Q_scope.

(** Inputs: distinct node ids, stops that are nodes of the city, one record per mode object, modes
    with non-zero d and v (the setters demand more), and a node sequence for each direction of a
    two-way route that has stops. *)
Record ext_input (g : graph) (rs : list route) : Prop := mkInput {
  xi_ids : NoDup (map nd_id (g_nodes g));
  xi_stops : forall r d z, In r rs -> In z (stops_of r d) -> In z (map nd_id (g_nodes g));
  xi_modes : forall r r', In r rs -> In r' rs -> m_ref (r_mode r) = m_ref (r_mode r') -> r_mode r = r_mode r';
  xi_d : forall r, In r rs -> ~ m_d (r_mode r) == 0;
  xi_v : forall r, In r rs -> ~ m_v (r_mode r) == 0;
  xi_seq : forall r d, In r rs -> r_type r <> CIRCULAR -> stops_of r d <> [] -> nodes_of r d <> []
}.

(** a route of mode m stops at the k-th node of the city *)
Definition served (g : graph) (rs : list route) (k : nat) (m : mode) : Prop :=
  exists r d nd, In r rs /\ m_ref (r_mode r) = m_ref m /\ nth_error (g_nodes g) k = Some nd /\ In (nd_id nd) (stops_of r d).

(** The stop visits of a direction: a circular route closes on its first stop, which is counted once. *)
Definition visits (r : route) (d : dir) : list Z :=
  match r_type r with CIRCULAR => tl (stops_of r d) | _ => stops_of r d end.
Definition lines (rs : list route) : list (route * dir) := flat_map (fun r => [(r, DI); (r, DR)]) rs.
Definition all_visits (rs : list route) : list (route * dir * Z) :=
  flat_map (fun '(r, d) => map (fun z => (r, d, z)) (visits r d)) (lines rs).
(** previous visit of each of [m] visits numbered from [base]; a circular line closes *)
Definition link (ty : rtype) (base m : nat) : list (option nat) :=
  match m with
  | O => []
  | S m' => (match ty with CIRCULAR => Some (base + m')%nat | _ => None end) :: map Some (seq base m')
  end.
Fixpoint links (base : nat) (l : list (route * dir)) : list (option nat) :=
  match l with
  | [] => []
  | (r, d) :: l' => link (r_type r) base (length (visits r d)) ++ links (base + length (visits r d)) l'
  end.

(** place and mode of a stop node / of a route node *)
Definition stop_place (X : xgraph) (s : nat) : option (Z * mode) :=
  match nth_error (xg_stops X) s with
  | Some st => match nth_error (g_nodes (xg_graph X)) (sn_city st) with
               | Some nd => Some (nd_id nd, sn_mode st)
               | None => None
               end
  | None => None
  end.
Definition rn_place (X : xgraph) (rn : rnode) : option (Z * mode) :=
  match rn_stop rn with Some s => stop_place X s | None => None end.

(** all the nodes, in the order in which the code visits them *)
Definition xnodes_of (t : xtree) : list enode :=
  flat_map (fun '(c, d) => EC c :: flat_map (fun '(s, l) => ES s :: map ER l) d) t.
Definition xnodes (X : xgraph) : list enode := xnodes_of (xg_nodes X).

(** the node itself belongs to the extended graph *)
Definition is_xnode (X : xgraph) (n : enode) : Prop :=
  match n with
  | EC c => exists k rn s st, nth_error (xg_rnodes X) k = Some rn /\ rn_stop rn = Some s /\
              nth_error (xg_stops X) s = Some st /\ sn_city st = c
  | ES s => exists k rn, nth_error (xg_rnodes X) k = Some rn /\ rn_stop rn = Some s
  | ER k => exists rn, nth_error (xg_rnodes X) k = Some rn
  end.

(** [z] is the last (resp. first) node of the sequence *)
Definition last_is (l : list Z) (z : Z) : Prop := exists t, l = t ++ [z].
Definition first_is (l : list Z) (z : Z) : Prop := exists t, l = z :: t.

(** boarding (alighting) is offered at a stop of a two-way route unless it is its last (first) node *)
Definition can_board (X : xgraph) (rn : rnode) : Prop :=
  r_type (rn_route rn) = CIRCULAR \/
  forall z m, rn_place X rn = Some (z, m) -> ~ last_is (nodes_of (rn_route rn) (rn_dir rn)) z.
Definition can_alight (X : xgraph) (rn : rnode) : Prop :=
  r_type (rn_route rn) = CIRCULAR \/
  forall z m, rn_place X rn = Some (z, m) -> ~ first_is (nodes_of (rn_route rn) (rn_dir rn)) z.
(** the pairs of nodes that an edge of each type joins *)
Inductive joins (X : xgraph) : etype -> enode -> enode -> Prop :=
| j_access_in c s st : is_xnode X (ES s) -> nth_error (xg_stops X) s = Some st -> sn_city st = c -> joins X ACCESS (EC c) (ES s)
| j_access_out c s st : is_xnode X (ES s) -> nth_error (xg_stops X) s = Some st -> sn_city st = c -> joins X ACCESS (ES s) (EC c)
| j_board k rn s : nth_error (xg_rnodes X) k = Some rn -> rn_stop rn = Some s -> can_board X rn -> joins X BOARDING (ES s) (ER k)
| j_alight k rn s : nth_error (xg_rnodes X) k = Some rn -> rn_stop rn = Some s -> can_alight X rn -> joins X ALIGHTING (ER k) (ES s)
| j_route k rn p : nth_error (xg_rnodes X) k = Some rn -> rn_prev rn = Some p -> joins X ROUTE (ER p) (ER k).

(** frequency of a route: the value given by the caller (0 if absent), or the initial frequency of
    the mode of the last route with that id *)
Definition route_frequency (rs : list route) (freq : option (list (string * Q))) (id : string) : Q :=
  match freq with
  | Some f => dget0 String.eqb 0 f id
  | None => fold_left (fun q r => if (id =? r_id r)%string then m_fini (r_mode r) else q) rs 0
  end.

(** length of a path given by node ids, from the coordinates of the city *)
Definition at_id (g : graph) (z : Z) (nd : node) : Prop := In nd (g_nodes g) /\ nd_id nd = z.
Inductive path_length (G : geo) (g : graph) : list Z -> Q -> Prop :=
| pl_one z : path_length G g [z] 0
| pl_step a b l na nb q : at_id g a na -> at_id g b nb -> path_length G g (b :: l) q ->
    path_length G g (a :: b :: l) (euclid G na nb + q).
(** some vehicle stops at the node *)
Definition stopped_at (rs : list route) (z : Z) : Prop := exists r d, In (r, d, z) (all_visits rs).
