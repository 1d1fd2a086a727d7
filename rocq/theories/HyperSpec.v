(** * HyperSpec: strategies on an extended graph and their expected cost *)
From Coq Require Import String List ZArith QArith Bool.
From Verif Require Import PyBase Graph Mode Route ExtGraph ExtSpec Hyperpath.
Import ListNotations.
Local Open Scope Q_scope.

(** Extended graphs on which the search is studied; Props_Hyper shows that those built from a city
    and valid routes are of this kind. *)
Record hyper_graph (X : xgraph) : Prop := mkHG {
  hg_nodes : NoDup (xnodes X);
  hg_ends : forall e, In e (xg_edges X) -> In (x_i e) (xnodes X) /\ In (x_j e) (xnodes X);
  hg_ids : NoDup (map (fun e => (x_type e, x_id e)) (xg_edges X));
  hg_pairs : NoDup (map (fun e => (x_i e, x_j e)) (xg_edges X));
  hg_time : forall e, In e (xg_edges X) -> 0 <= x_t e;
  hg_board : forall e, In e (xg_edges X) ->
     match x_f e with
     | None => x_type e <> BOARDING
     | Some f => x_type e = BOARDING /\ 0 <= f /\ x_t e == 0 /\ exists s, x_i e = ES s
     end;
  hg_alight : forall e, In e (xg_edges X) -> x_type e = ALIGHTING -> exists s, x_j e = ES s;
  hg_stops : forall s, In (ES s) (xnodes X) -> exists st, nth_error (xg_stops X) s = Some st;
  hg_tree : forall c s, In (c, s) (tree_pairs (xg_nodes X)) <->
     In (ES s) (xnodes X) /\ exists st, nth_error (xg_stops X) s = Some st /\ sn_city st = c;
  hg_city : forall c c', In (EC c) (xnodes X) -> In (EC c') (xnodes X) ->
     nd_id (gnode (xg_graph X) c) = nd_id (gnode (xg_graph X) c') -> c = c';
  hg_modes : forall s s' st st', In (ES s) (xnodes X) -> In (ES s') (xnodes X) ->
     nth_error (xg_stops X) s = Some st -> nth_error (xg_stops X) s' = Some st' ->
     m_ref (sn_mode st) = m_ref (sn_mode st') -> sn_mode st = sn_mode st';
  hg_board_into : forall e e' k, In e (xg_edges X) -> In e' (xg_edges X) -> x_type e = BOARDING -> x_type e' = BOARDING ->
     x_j e = ER k -> x_j e' = ER k -> x_i e = x_i e';
  hg_into : forall e, In e (xg_edges X) -> (x_type e = BOARDING -> exists k, x_j e = ER k) /\
     ((exists k, x_j e = ER k) -> x_type e = BOARDING \/ x_type e = ROUTE);
  hg_order : forall e, In e (xg_edges X) -> x_type e = BOARDING -> exists l1 l2 l3, xnodes X = l1 ++ x_i e :: l2 ++ x_j e :: l3;
  hg_stop : forall s s' st st', nth_error (xg_stops X) s = Some st -> nth_error (xg_stops X) s' = Some st' ->
     sn_city st = sn_city st' -> m_ref (sn_mode st) = m_ref (sn_mode st') -> s = s'
}.
(** Parameters accepted by the setters, with pv > 0.  Waiting must cost something, or else moving by
    one stop must take time. *)
Record weights (X : xgraph) (P : qpass) : Prop := mkWG {
  wg_theta : forall s st, In (ES s) (xnodes X) -> nth_error (xg_stops X) s = Some st -> 0 <= m_theta (sn_mode st);
  wg_pv : 0 < q_pv P;
  wg_pw : 0 <= q_pw P;
  wg_pa : 0 <= q_pa P;
  wg_tie : (0 < q_pw P /\ forall s st, In (ES s) (xnodes X) -> nth_error (xg_stops X) s = Some st -> 0 < m_theta (sn_mode st)) \/
           (forall e, In e (xg_edges X) -> x_type e = ROUTE -> 0 < x_t e)
}.

(** Cost of an edge in equivalent in-vehicle hours: walking is weighted by pa/pv, and the transfer
    penalty of an alighting edge is not charged at the destination. *)
Definition stop_is_at (X : xgraph) (n : enode) (d : option enode) : bool :=
  match n with
  | ES s => match nth_error (xg_stops X) s, d with
            | Some st, Some (EC c) => Nat.eqb (sn_city st) c
            | _, _ => false
            end
  | _ => false
  end.
Definition leg_cost (X : xgraph) (P : qpass) (d : option enode) (e : xedge) : Q :=
  match x_type e with
  | ACCESS => x_t e * q_pa P / q_pv P
  | ALIGHTING => if stop_is_at X (x_j e) d then 0 else x_t e
  | _ => x_t e
  end.
(** expected weighted waiting time at a stop, times the total frequency *)
Definition wait_cost (X : xgraph) (P : qpass) (n : enode) : Q :=
  match n with
  | ES s => match nth_error (xg_stops X) s with
            | Some st => m_theta (sn_mode st) * q_pw P / q_pv P
            | None => 0
            end
  | _ => 0
  end.
Definition avoids (o : option enode) (e : xedge) : Prop := o <> Some (x_i e) /\ o <> Some (x_j e).
Definition freq_of (e : xedge) : Q := match x_f e with Some f => f | None => 0 end.

(** [strategy_cost n q]: some strategy leads from n to the destination at expected cost q, without
    using the edges of the origin city node: either we are there, or we take one edge, or we wait at
    a stop for the first of a set of attractive lines and board it. *)
Inductive strategy_cost (X : xgraph) (P : qpass) (o d : option enode) : enode -> Q -> Prop :=
| sc_here n q : d = Some n -> q == 0 -> strategy_cost X P o d n q
| sc_move e c q : In e (xg_edges X) -> x_f e = None -> avoids o e ->
    strategy_cost X P o d (x_j e) c -> q == leg_cost X P d e + c -> strategy_cost X P o d (x_i e) q
| sc_wait n (es : list (xedge * Q)) q : es <> [] -> NoDup (map fst es) ->
    (forall e c, In (e, c) es -> In e (xg_edges X) /\ x_i e = n /\ (exists f, x_f e = Some f /\ 0 < f) /\ avoids o e) ->
    (forall e c, In (e, c) es -> strategy_cost X P o d (x_j e) c) ->
    q * Qsumf (fun ec => freq_of (fst ec)) es ==
      wait_cost X P n + Qsumf (fun ec => freq_of (fst ec) * (leg_cost X P d (fst ec) + snd ec)) es ->
    strategy_cost X P o d n q.
(** the minimum over all strategies; None when there is none *)
Definition is_min_cost (X : xgraph) (P : qpass) (o d : option enode) (n : enode) (v : option Q) : Prop :=
  match v with
  | Some q => strategy_cost X P o d n q /\ forall q', strategy_cost X P o d n q' -> q <= q'
  | None => forall q', ~ strategy_cost X P o d n q'
  end.
(** walking time from the origin to one of its stops, charged in the labels of those stops *)
Definition access_cost (X : xgraph) (P : qpass) (o : option enode) (n : enode) : Q :=
  match n with
  | ES s => match nth_error (xg_stops X) s, o with
            | Some st, Some (EC c) => if Nat.eqb (sn_city st) c then m_tat (sn_mode st) / 60 * q_pa P / q_pv P else 0
            | _, _ => 0
            end
  | _ => 0
  end.

(** The choice made at a node n, given the costs of the nodes after it: one edge, or the first to pass of a
    set of lines; [q] is its expected cost. *)
Definition strategy_step (X : xgraph) (P : qpass) (d : option enode) (cost : enode -> Q) (n : enode) (es : list xedge) (q : Q) : Prop :=
  (exists e, es = [e] /\ x_f e = None /\ q == leg_cost X P d e + cost (x_j e)) \/
  (es <> [] /\ (forall e, In e es -> exists f, x_f e = Some f /\ 0 < f) /\
   q * Qsumf freq_of es == wait_cost X P n + Qsumf (fun e => freq_of e * (leg_cost X P d e + cost (x_j e))) es).

(** successor walks to the destination *)
Inductive walk (suc : enode -> list xedge) (d : option enode) : enode -> list enode -> Prop :=
| wk_end n : d = Some n -> walk suc d n [n]
| wk_step n e p : d <> Some n -> In e (suc n) -> walk suc d (x_j e) p -> walk suc d n (n :: p).

(** OD pairs with trips *)
Definition has_trips (M : dict2) (o d : Z) (v : Q) : Prop := exists row, In (o, row) M /\ In (d, v) row /\ ~ v == 0.
(** the city node with that id, if some vehicle stops there *)
Definition served_city (X : xgraph) (z : Z) (n : option enode) : Prop :=
  match n with
  | Some (EC c) => In (EC c) (xnodes X) /\ nd_id (gnode (xg_graph X) c) = z
  | Some _ => False
  | None => forall c, In (EC c) (xnodes X) -> nd_id (gnode (xg_graph X) c) <> z
  end.

(** a strategy leads from some stop of the origin to the destination *)
Definition connected (X : xgraph) (P : qpass) (o d : Z) : Prop :=
  exists c dest s st q, served_city X o (Some (EC c)) /\ served_city X d dest /\
    In (ES s) (xnodes X) /\ nth_error (xg_stops X) s = Some st /\ sn_city st = c /\
    strategy_cost X P (Some (EC c)) dest (ES s) q.
(** the modes with a stop *)
Definition used_mode (X : xgraph) (m : mode) : Prop :=
  exists s st, In (ES s) (xnodes X) /\ nth_error (xg_stops X) s = Some st /\ sn_mode st = m.
(** one mode, or two with at least one of a single line per axis *)
Definition usable_modes (l : list mode) : Prop :=
  length l = 1%nat \/ (length l = 2%nat /\ exists m, In m l /\ m_d m == 1).
(** a loop bounded by fuel terminates within [n] steps: more fuel changes nothing *)
Definition terminates_within {A} (n : nat) (f : nat -> res A) : Prop :=
  f n <> Err NonTermination /\ forall k, (n <= k)%nat -> f k = f n.
