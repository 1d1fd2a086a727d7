(** * Results: model of /repo/sidermit/optimization/optimizer.py, lines 509-822

    Simplifications, valid for the whole file: those of Optimizer.v; the argument is better_res, None when no
    optimisation was made; the strings of string_network_results and string_overall_results are in Report.v. *)
From Coq Require Import String List ZArith QArith Qabs Bool.
From Verif Require Import PyBase Graph Demand Mode Route Network ExtGraph Hyperpath Assignment Costs UsersCost Optimizer.
Import ListNotations.
Local Open Scope Q_scope.

(** stop_node.city_node.graph_node.id *)
Definition stop_node_id (X : xgraph) (s : nat) : Z := nd_id (gnode (xg_graph X) (sn_city (stop_at (xg_stops X) s))).
(** 561-564, 565-568, 615-616, 631-632: the first key of the row that is a stop of the node *)
Definition stop_in_row (X : xgraph) (t : tab) (r : string) (d : dir) (node : Z) : option nat :=
  find (fun s => (stop_node_id X s =? node)%Z) (map fst (trow t r d)).

(** the tuples of 606-609, 678-681, 714-715 *)
Record nrow : Type := mkRow {
  nr_id : string; nr_F : Q; nr_f : Q; nr_k : Q; nr_b : Q; nr_tc : Q; nr_co : Q; nr_min : fval;
  nr_i : list (Z * Z * Q); nr_r : list (Z * Z * Q)
}.

(** 613-626 and 629-642: the charges at the departure of each node; the state is (total_pax, total_b, charges) *)
Definition charges (X : xgraph) (z v : tab) (r : string) (d : dir) (k : Q) (nodes : list Z) (total_b : Q) : res (Q * list (Z * Q)) :=
  let* st := foldM (fun '(pax, tb, l) node =>
      let '(pax, tb) := match stop_in_row X z r d node with
                        | Some s => (pax + (tget z r d s - tget v r d s), tb + tget z r d s)
                        | None => (pax, tb)
                        end in
      let* q := qdiv pax k in Ok (pax, tb, l ++ [(node, q)])) nodes (0, total_b, []) in
  let '(_, tb, l) := st in Ok (tb, l).
(** 648-661 and 663-676: the sections, and the smallest charge *)
Fixpoint sections_from (i : Z) (c : Q) (l : list (Z * Q)) (m : fval) : list (Z * Z * Q) * fval :=
  match l with
  | [] => ([], m)
  | (j, c') :: l' =>
      let m := if flt (Fin c) m then Fin c else m in
      let '(t, m) := sections_from j c' l' m in ((i, j, Qabs c) :: t, m)
  end.
Definition sections (l : list (Z * Q)) (m : fval) : list (Z * Z * Q) * fval :=
  match l with [] => ([], m) | (i, c) :: l' => sections_from i c l' m end.
(** 573-574 and 644-645 *)
Definition cost_per_pax (m : mode) (k f ct tb : Q) : res Q := qdiv ((m_co m + m_c1 m * k) * f * ct) (tb * f).
(** 610-681: a line that is not circular, of frequency [f] > 0 *)
Definition row_open (X : xgraph) (z v : tab) (f k ct : Q) (r : route) : res nrow :=
  let b := ct * f in
  let* ci := charges X z v (r_id r) DI k (r_ni r) 0 in
  let* cr := charges X z v (r_id r) DR k (r_nr r) (fst ci) in
  let* co := cost_per_pax (r_mode r) k f ct (fst cr) in
  let '(ti, m) := sections (snd ci) PInf in
  let '(tr, m) := sections (snd cr) m in
  let* fd := qdiv f (m_d (r_mode r)) in
  Ok (mkRow (r_id r) f fd k b (ct * 60) co (fabs m) ti tr).

(** 559-568: boardings and loads found at the nodes of the sequence *)
Definition loads (X : xgraph) (z l : tab) (r : string) (d : dir) (nodes : list Z) : Q * list Q :=
  fold_left (fun '(tb, ls) node =>
    (match stop_in_row X z r d node with Some s => tb + tget z r d s | None => tb end,
     match stop_in_row X l r d node with Some s => ls ++ [tget l r d s] | None => ls end)) nodes (0, []).
(** [min] and [max] of a list that is not empty *)
Definition lmin (l : list Q) : Q := match l with [] => 0 | q :: l => fold_left (fun m x => if Qltb x m then x else m) l q end.
Definition lmax (l : list Q) : Q := match l with [] => 0 | q :: l => fold_left (fun m x => if Qltb m x then x else m) l q end.
(** 586-597: [n] is the position in the sequence; load_i[i] may raise IndexError *)
Definition charge_at (ls : list Q) (n : nat) : res Q :=
  match nth_error ls n with None => Err IndexError | Some q => qdiv q (lmax ls) end.
Fixpoint ring_sections (ls : list Q) (n : nat) (i : Z) (c : Q) (nodes : list Z) : res (list (Z * Z * Q)) :=
  match nodes with
  | [] => Ok []
  | j :: nodes' =>
      let* c' := charge_at ls n in
      let* t := ring_sections ls (S n) j c' nodes' in Ok ((i, j, Qabs c) :: t)
  end.
(** 549-609: a circular line of frequency [f] > 0 *)
Definition row_ring (X : xgraph) (z l : tab) (f k ct : Q) (r : route) : res nrow :=
  let b := ct * f in
  let '(nodes, d) := match r_ni r with [] => (r_nr r, DR) | _ => (r_ni r, DI) end in
  let '(tb, ls) := loads X z l (r_id r) d nodes in
  let* co := (if Qeqb tb 0 then Ok 0 else cost_per_pax (r_mode r) k f ct tb) in
  let* cm := (match ls with [] => Ok (map (fun _ => 1) nodes, 0) | _ => let* q := qdiv (lmin ls) (lmax ls) in Ok (ls, q) end) in
  let '(ls, m) := cm in
  let* t := (match nodes with [] => Ok [] | i :: nodes' => let* c := charge_at ls 0 in ring_sections ls 1 i c nodes' end) in
  let* fd := qdiv f (m_d (r_mode r)) in
  Ok (mkRow (r_id r) f fd k b (ct * 60) co (Fin (Qabs m))
        (match r_ni r with [] => [] | _ => t end) (match r_ni r with [] => t | _ => [] end)).
(** 683-715: a line that does not run *)
Definition row_idle (r : route) : nrow :=
  let zeros l := map (fun '(i, j) => (i, j, 0)) (arcs_of l) in
  mkRow (r_id r) 0 0 0 0 0 0 (Fin 0) (zeros (r_ni r)) (zeros (r_nr r)).
Definition row_of (X : xgraph) (z v l : tab) (f k ct : fdict) (r : route) : res nrow :=
  let fr := freq f (r_id r) in
  if Qltb 0 fr then
    (if is_circular (r_type r) then row_ring X z l fr (freq k (r_id r)) (freq ct (r_id r)) r
     else row_open X z v fr (freq k (r_id r)) (freq ct (r_id r)) r)
  else Ok (row_idle r).
(** 509-717 (get_network_results): the tables are those left by get_cycle_time *)
Definition get_network_results (o : optimizer) (better : option entry) : res (list nrow) :=
  match better with
  | None => Err NoOptimalSolutionFoundException
  | Some e =>
      let* last := last_iteration o e in
      let '(o', f, t, k) := last in
      let B := o_pb o' in
      let* ltt := lines_travel_time (pb_routes B) (get_edges_distance (pb_geo B) (pb_graph B)) in
      let '(ct, z, v) := get_cycle_time (t_z t) (t_v t) (pb_routes B) ltt in
      mapM (row_of (o_X o') z v (t_l t) f k ct) (pb_routes B)
  end.

(** 810-822: the dictionary of the overall results *)
Record overall : Type := mkOverall {
  ov_vrc : Q; ov_co : Q; ov_ci : Q; ov_cu : Q; ov_tv : Q; ov_te : Q; ov_ta : Q; ov_t : Q;
  ov_B : list (mode * Q); ov_K : list (mode * Q); ov_L : list (mode * Q)
}.
(** 794-808: vehicles, lines and capacities by mode *)
Definition by_mode (rs : list route) (f k ct : fdict) : list (mode * Q) * list (mode * Q) * list (mode * list Q) :=
  fold_left (fun '(B, L, K) r =>
    if Qltb 0 (freq f (r_id r)) then
      let m := r_mode r in
      (dset mode_eqb B m (dget0 mode_eqb 0 B m + freq f (r_id r) * freq ct (r_id r)),
       dset mode_eqb L m (dget0 mode_eqb 0 L m + m_d m),
       dset mode_eqb K m (dget0 mode_eqb [] K m ++ [freq k (r_id r)]))
    else (B, L, K)) rs ([], [], []).
(** 806-808 ([sum] starts from 0) *)
Definition mean (l : list Q) : res Q := qdiv (fold_left Qplus l 0) (Qofnat (length l)).
(** 746-822 (get_overall_results) *)
Definition get_overall_results (o : optimizer) (better : option entry) : res overall :=
  match better with
  | None => Err NoOptimalSolutionFoundException
  | Some e =>
      let* last := last_iteration o e in
      let '(o', f, t, k) := last in
      let* oc := operators_cost (o_pb o) (t_z t) (t_v t) f k in
      let '(co, z, v) := oc in
      let ci := infrastructure_cost (o_pb o) f in
      let* cu := user_cost (o_pb o) o' f z v in
      let vrc := co + ci + cu in
      let* u := resources_consumer (pb_fuel (o_pb o)) (o_X o') (q_va (pb_pass (o_pb o'))) f (o_es o') (o_asg o') z v in
      let B := o_pb o' in
      let* ltt := lines_travel_time (pb_routes B) (get_edges_distance (pb_geo B) (pb_graph B)) in
      let '(ct, _, _) := get_cycle_time z v (pb_routes B) ltt in
      let '(Bm, Lm, Kl) := by_mode (pb_routes (o_pb o)) f k ct in
      let* K := mapM (fun '(m, l) => let* q := mean l in Ok (m, q)) Kl in
      let T := dm_total (pb_demand (o_pb o)) in
      let* vrc' := qdiv vrc T in let* co' := qdiv co T in let* ci' := qdiv ci T in let* cu' := qdiv cu T in
      let* tv := qdiv (u_tv u) T in let* te := qdiv (u_te u) T in let* ta := qdiv (u_ta u) T in let* tr := qdiv (u_t u) T in
      Ok (mkOverall vrc' co' ci' cu' (tv * 60) (te * 60) (ta * 60) tr Bm K Lm)
  end.
