(** * FlowSpec: passenger flows on a strategy *)
From Coq Require Import String List ZArith QArith Bool.
From Verif Require Import PyBase Graph Mode Route ExtGraph ExtSpec Hyperpath HyperSpec Assignment AssignSpec.
Import ListNotations.
Local Open Scope Q_scope.

(** The edges of an extended graph: boarding from the stop of a route node, alighting at it, riding to the
    next route node of the same route and direction, walking between a stop and its city node. *)
Definition edge_shape (X : xgraph) (x : xedge) : Prop :=
  match x_f x, x_i x, x_j x with
  | Some _, ES s, ER k => rn_stop (rnode_at (xg_rnodes X) k) = Some s
  | None, ER k, ES s => rn_stop (rnode_at (xg_rnodes X) k) = Some s
  | None, ER p, ER k => rid X p = rid X k /\ rdir X p = rdir X k /\ rn_prev (rnode_at (xg_rnodes X) k) = Some p /\
                        exists s, rn_stop (rnode_at (xg_rnodes X) p) = Some s
  | None, EC c, ES s | None, ES s, EC c => sn_city (stop_at (xg_stops X) s) = c
  | _, _, _ => False
  end.

(** total frequency of the lines that the travellers waiting at a node are willing to board *)
Definition lines_freq (X : xgraph) (f : fdict) (l : list xedge) : Q :=
  Qsumf (fun x => match x_j x with ER k => freq f (rid X k) | _ => 0 end) l.
(** the part of the travellers at i that goes to j: proportional to the frequencies when boarding *)
Definition share (X : xgraph) (f : fdict) (suc : enode -> list xedge) (i j : enode) : Q :=
  match i, j with
  | ES _, ER k => freq f (rid X k) / lines_freq X f (suc i)
  | _, _ => 1
  end.
(** frequencies are not negative, and wherever the travellers of a strategy board, some line runs *)
Definition runs (X : xgraph) (f : fdict) (e : od_entry) : Prop :=
  forall n x, In x (hr_suc (od_res e) n) -> x_f x <> None ->
    exists y k, In y (hr_suc (od_res e) n) /\ x_j y = ER k /\ 0 < freq f (rid X k).

(** trips of an OD pair that start at stop s, per hour *)
Definition start_trips (e : od_entry) (a : list (nat * Q)) (s : nat) : Q := od_v e * dget0 Nat.eqb 0 a s / 100.
(** trips of an OD pair that were given a stop *)
Definition assigned_trips (e : od_entry) (a : list (nat * Q)) : Q := Qsumf (start_trips e a) (map fst (od_paths e)).

(** sum of the entries of a table, weighted by route, direction and stop *)
Definition table_sum (W : string -> dir -> nat -> Q) (t : tab) : Q :=
  Qsumf (fun '(r, rows) => Qsumf (fun '(d, row) => Qsumf (fun '(s, q) => W r d s * q) row) rows) t.
(** passengers per hour at the stops of the c-th city node, from a table of passengers per vehicle *)
Definition city_total (X : xgraph) (f : fdict) (t : tab) (c : nat) : Q :=
  table_sum (fun r _ s => if Nat.eqb (sn_city (stop_at (xg_stops X) s)) c then freq f r else 0) t.

(** The flow of the travellers of one OD pair over the edges of the graph: it only uses the successors of the
    strategy, it stops at the stops of the destination, and out of every node it is the part given by
    [share] of what starts there and of what comes in. *)
Definition starts_at (e : od_entry) (a : list (nat * Q)) (n : enode) : Q :=
  match n with ES s => if existsb (Nat.eqb s) (map fst (od_paths e)) then start_trips e a s else 0 | _ => 0 end.
Definition inflow (X : xgraph) (F : xedge -> Q) (n : enode) : Q :=
  Qsumf (fun y => if enode_eqb (x_j y) n then F y else 0) (xg_edges X).
Definition strategy_flow (X : xgraph) (f : fdict) (e : od_entry) (a : list (nat * Q)) (F : xedge -> Q) : Prop :=
  forall x, In x (xg_edges X) ->
    (In x (hr_suc (od_res e) (x_i x)) -> stop_of_dest X (od_d e) (x_i x) = false ->
       F x == share X f (hr_suc (od_res e)) (x_i x) (x_j x) * (starts_at e a (x_i x) + inflow X F (x_i x))) /\
    (~ In x (hr_suc (od_res e) (x_i x)) \/ stop_of_dest X (od_d e) (x_i x) = true -> F x == 0).

(** the edges on which one boards, alights from, or rides after stop s, route r in direction d *)
Definition board_edge (X : xgraph) (r : string) (d : dir) (s : nat) (x : xedge) : bool :=
  match x_i x, x_j x with ES s', ER k => (r =? rid X k)%string && dir_eqb d (rdir X k) && Nat.eqb s s' | _, _ => false end.
Definition alight_edge (X : xgraph) (r : string) (d : dir) (s : nat) (x : xedge) : bool :=
  match x_i x, x_j x with ER k, ES s' => (r =? rid X k)%string && dir_eqb d (rdir X k) && Nat.eqb s s' | _, _ => false end.
Definition ride_edge (X : xgraph) (r : string) (d : dir) (s : nat) (x : xedge) : bool :=
  match x_i x, x_j x with ER k, ER _ => (r =? rid X k)%string && dir_eqb d (rdir X k) && Nat.eqb s (rn_stop_at (xg_rnodes X) k) | _, _ => false end.
(** travellers per hour of all the OD pairs over a set of edges *)
Definition over_edges (X : xgraph) (Fs : list (xedge -> Q)) (sel : xedge -> bool) : Q :=
  Qsumf (fun F => Qsumf (fun x => if sel x then F x else 0) (xg_edges X)) Fs.

(** The situation in which the assignment runs: a graph built from a network, the strategies found on it, and
    frequencies under which the strategies can be used. *)
Record flow_input (G : geo) (g : graph) (rs : list route) (TP : Q) (fr : option (list (string * Q))) (X : xgraph)
    (P : qpass) (M : dict2) (fuel0 : nat) (es : list od_entry) (f : fdict) : Prop := mkFI {
  fi_input : ext_input g rs;
  fi_built : build_ext G g rs TP fr = Ok X;
  fi_graph : hyper_graph X;
  fi_weights : weights X P;
  fi_fuel : (length (xnodes X) < fuel0)%nat;
  fi_hyper : get_all_hyperpaths fuel0 X P M = Ok es;
  fi_freq : forall r, 0 <= freq f r;
  fi_runs : forall e, In e es -> runs X f e
}.
