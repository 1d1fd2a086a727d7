(** * UsersCost: model of /repo/sidermit/optimization/users_cost.py

    Simplifications, valid for the whole file: those of Assignment.v (one list of entries by OD pair, exact
    arithmetic, fuel for the while loop); the reads of z and v insert zero entries in these default
    dictionaries, which no caller looks at afterwards (optimizer.py 216, 770), so the tables are not returned. *)
From Coq Require Import String List ZArith QArith Bool.
From Verif Require Import PyBase Graph Mode Route ExtGraph Hyperpath Assignment.
Import ListNotations.
Local Open Scope Q_scope.

(** 48-51: access time, waiting time, time on board, transfers *)
Record resources : Type := mkU { u_ta : Q; u_te : Q; u_tv : Q; u_t : Q }.
Definition add_ta (u : resources) (q : Q) : resources := mkU (u_ta u + q) (u_te u) (u_tv u) (u_t u).
Definition add_te (u : resources) (q : Q) : resources := mkU (u_ta u) (u_te u + q) (u_tv u) (u_t u).
Definition add_tv (u : resources) (q : Q) : resources := mkU (u_ta u) (u_te u) (u_tv u + q) (u_t u).
Definition add_t (u : resources) (q : Q) : resources := mkU (u_ta u) (u_te u) (u_tv u) (u_t u + q).

Definition route_of (X : xgraph) (k : nat) : route := rn_route (rnode_at (xg_rnodes X) k).
(** route_node.stop_node.city_node.graph_node.id *)
Definition rn_node_id (X : xgraph) (k : nat) : Z := nd_id (rn_gnode (xg_graph X) (xg_stops X) (xg_rnodes X) k).
(** 119-128 and 168-177: the position of the last occurrence of the id, 0 if there is none ([str(a) == str(b)] is
    equality of ids, PyStrFacts.str_of_Z_inj) *)
Fixpoint last_index_from (z : Z) (l : list Z) (index acc : nat) : nat :=
  match l with
  | [] => acc
  | x :: l' => last_index_from z l' (S index) (if (x =? z)%Z then index else acc)
  end.
Definition last_index (z : Z) (l : list Z) : nat := last_index_from z l 0 0.
(** 131-138 and 179-192: the direction read in the tables *)
Definition guess_dir (r : route) (zi zj : Z) : dir := if Nat.ltb (last_index zi (r_si r)) (last_index zj (r_si r)) then DI else DR.

(** 86-96 *)
Definition report_te (X : xgraph) (f : fdict) (suc : enode -> list xedge) (i j : enode) (q : Q) (u : resources) : res resources :=
  match i, j with
  | ES s, ER k =>
      let* fa := f_acum X f (suc i) in
      let* w := qdiv fa (m_d (r_mode (route_of X k))) in
      let* te := qdiv (q * m_theta (sn_mode (stop_at (xg_stops X) s))) w in
      Ok (add_te u te)
  | _, _ => Ok u
  end.
(** 99-104 *)
Definition report_tv (X : xgraph) (i j : enode) (q : Q) (u : resources) : resources :=
  match i, j with
  | ER _, ER _ =>
      match find (fun x => enode_eqb (x_i x) i && enode_eqb (x_j x) j) (xg_edges X) with
      | Some x => add_tv u (q * x_t x)
      | None => u
      end
  | _, _ => u
  end.
(** 107-139 *)
Definition report_alighting (X : xgraph) (dest : option enode) (v : tab) (i j : enode) (q : Q) (u : resources) : res resources :=
  match i, j with
  | ER k, ES s =>
      let u := if stop_of_dest X dest j then u else add_t u q in
      match rn_prev (rnode_at (xg_rnodes X) k) with
      | None => Err AttributeError
      | Some p =>
          let r := route_of X k in
          let d := guess_dir r (rn_node_id X p) (rn_node_id X k) in
          let tb := m_t (r_mode r) / 3600 in
          Ok (add_tv u (tget v (r_id r) d s * (1 # 2) * tb * q))
      end
  | _, _ => Ok u
  end.
(** 142-147 *)
Definition report_ta (X : xgraph) (i j : enode) (u : resources) : resources :=
  match i, j with
  | ES s, EC _ => add_ta u (m_tat (sn_mode (stop_at (xg_stops X) s)) / 60)
  | EC _, ES s => add_ta u (m_tat (sn_mode (stop_at (xg_stops X) s)) / 60)
  | _, _ => u
  end.
(** 158-202: one successor of nodej *)
Definition report_dwell (X : xgraph) (z v : tab) (i j k : enode) (q : Q) (u : resources) : resources :=
  match i, j, k with
  | ER a, ER b, ER _ =>
      let r := route_of X a in
      let tb := m_t (r_mode r) / 3600 in
      let d := guess_dir r (rn_node_id X a) (rn_node_id X b) in
      let s := rn_stop_at (xg_rnodes X) b in
      let u := if Qeqb (m_bya (r_mode r)) 1 then add_tv u (Qmaxb (tget z (r_id r) d s) (tget v (r_id r) d s) * tb * q) else u in
      if Qeqb (m_bya (r_mode r)) 0 then add_tv u ((tget z (r_id r) d s + tget v (r_id r) d s) * tb * q) else u
  | _, _, _ => u
  end.
(** 85-202: what one element of the list adds, [q] being dis_pax *)
Definition report (X : xgraph) (f : fdict) (z v : tab) (suc : enode -> list xedge) (dest : option enode) (i j : enode) (q : Q) (u : resources) : res resources :=
  let* u := report_te X f suc i j q u in
  let u := report_tv X i j q u in
  let* u := report_alighting X dest v i j q u in
  let u := report_ta X i j u in
  Ok (fold_left (fun u e => report_dwell X z v i j (x_j e) q u) (suc j) u).
(** 76-202: the while loop *)
Fixpoint consume (fuel : nat) (X : xgraph) (f : fdict) (z v : tab) (suc : enode -> list xedge) (dest : option enode)
  (paths : list (enode * enode * Q)) (u : resources) : res resources :=
  match paths with
  | [] => Ok u
  | (i, j, pax) :: rest =>
      match fuel with
      | O => Err NonTermination
      | S k =>
          if stop_of_dest X dest i then consume k X f z v suc dest rest u
          else
            let* q := dis_pax X f suc i j pax in
            let* u := report X f z v suc dest i j q u in
            consume k X f z v suc dest (rest ++ map (fun e => (j, x_j e, q)) (suc j)) u
      end
  end.
(** 59-202: one stop of an OD pair; [a] is assignment[origin][destination] *)
Definition width_of (X : xgraph) (o : option enode) : Q :=
  match o with Some (EC c) => nd_width (gnode (xg_graph X) c) | _ => 0 end.
Definition consume_stop (fuel : nat) (X : xgraph) (vp : Q) (f : fdict) (z v : tab) (e : od_entry) (a : list (nat * Q)) (u : resources) (s : nat) : res resources :=
  let vs := od_v e * dget0 Nat.eqb 0 a s / 100 in
  if Qeqb vs 0 then Ok u
  else
    let m := sn_mode (stop_at (xg_stops X) s) in
    let* w := qdiv (dget0 Nat.eqb 0 a s / 100 * width_of X (od_o e)) (4 * vp * m_d m) in
    let u := add_ta u (vs * (m_tat m / 60 + w)) in
    consume fuel X f z v (hr_suc (od_res e)) (od_d e) (map (fun x => (ES s, x_j x, vs)) (hr_suc (od_res e) (ES s))) u.
Definition consume_od (fuel : nat) (X : xgraph) (vp : Q) (f : fdict) (z v : tab) (u : resources) (ea : od_entry * list (nat * Q)) : res resources :=
  foldM (consume_stop fuel X vp f z v (fst ea) (snd ea)) (map fst (od_paths (fst ea))) u.
(** 30-204 (resources_consumer) *)
Definition resources_consumer (fuel : nat) (X : xgraph) (vp : Q) (f : fdict) (es : list od_entry) (asg : list (list (nat * Q))) (z v : tab) : res resources :=
  foldM (consume_od fuel X vp f z v) (combine es asg) (mkU 0 0 0 0).
(** 206-229 (get_users_cost) *)
Definition users_cost (P : qpass) (u : resources) : Q :=
  u_ta u * q_spa P + u_te u * q_spw P + u_tv u * q_spv P + u_t u * q_spt P / 60 * q_spv P.
Definition get_users_cost (fuel : nat) (X : xgraph) (P : qpass) (f : fdict) (es : list od_entry) (asg : list (list (nat * Q))) (z v : tab) : res Q :=
  let* u := resources_consumer fuel X (q_va P) f es asg z v in Ok (users_cost P u).
