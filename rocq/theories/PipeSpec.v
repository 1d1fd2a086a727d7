(** * PipeSpec: problems that a user can pose to the optimiser *)
From Coq Require Import String List ZArith QArith.
From Verif Require Import PyBase Graph Demand Mode Route Network ExtGraph ExtSpec Hyperpath HyperSpec ConnSpec Assignment Costs UsersCost Optimizer.
Import ListNotations.
Local Open Scope Q_scope.

(** the while loops of the program have no bound: [n] is the number of turns that the model gives them *)
Definition with_fuel (B : problem) (n : nat) : problem :=
  mkProblem (pb_geo B) (pb_city B) (pb_demand B) (pb_pass B) (pb_net B) n.

(** Parameters within their range.  [fg] are the frequencies given by the caller, if any. *)
Record posed (B : problem) (fg : option fdict) : Prop := mkPosed {
  po_input : ext_input (pb_graph B) (pb_routes B);
  po_ids : NoDup (map r_id (pb_routes B));
  po_geo : forall q, 0 <= geo_sqrt (pb_geo B) q;
  po_edges : forall e, In e (g_edges (pb_graph B)) -> edge_ends (pb_graph B) e <> None;
  po_zone : 0 <= p_p (c_params (pb_city B));
  po_lines : forall r, In r (pb_routes B) -> 1 <= m_d (r_mode r) /\ 0 < m_v (r_mode r) /\ 0 <= m_tat (r_mode r) /\ 0 < m_theta (r_mode r) /\ 0 < m_fini (r_mode r);
  po_modes : forall m, In m (nw_modes (pb_net B)) -> 0 < m_d m;
  po_pass : 0 < q_va (pb_pass B) /\ 0 < q_pv (pb_pass B) /\ 0 < q_pw (pb_pass B) /\ 0 < q_pa (pb_pass B) /\ 0 <= q_pt (pb_pass B);
  po_given : forall f, fg = Some f -> forall r, In r (pb_routes B) -> 0 <= freq f (r_id r)
}.
(** the lines allow every trip, and the modes that they use can be told apart and share the axes *)
Definition serves (B : problem) (fg : option fdict) : Prop :=
  (forall o d v, has_trips (dm_matrix (pb_demand B)) o d v -> o <> d /\ travel (pb_routes B) fg o d) /\
  exists used, NoDup used /\ (forall m, In m used <-> mode_in_use (pb_routes B) m) /\ NoDup (map m_name used) /\ usable_modes used.
(** nothing has a negative price, and nobody makes a negative number of trips *)
Record priced (B : problem) : Prop := mkPriced {
  pr_modes : forall r, In r (pb_routes B) -> 0 <= m_co (r_mode r) /\ 0 <= m_c1 (r_mode r) /\ 0 <= m_t (r_mode r);
  pr_streets : forall m, In m (nw_modes (pb_net B)) -> 0 <= m_c2 m;
  pr_users : 0 <= q_spa (pb_pass B) /\ 0 <= q_spw (pb_pass B) /\ 0 <= q_spv (pb_pass B) /\ 0 <= q_spt (pb_pass B);
  pr_width : forall n, In n (g_nodes (pb_graph B)) -> 0 <= nd_width n;
  pr_trips : forall o d v, has_trips (dm_matrix (pb_demand B)) o d v -> 0 <= v
}.
(** a positive frequency for every line *)
Definition all_positive (B : problem) (x : list Q) : Prop := length x = length (pb_routes B) /\ forall q, In q x -> 0 < q.
