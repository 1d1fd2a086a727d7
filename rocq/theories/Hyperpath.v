(** * Hyperpath: model of /repo/sidermit/optimization/preoptimization/hyper_path.py

    Simplifications, valid for the whole file:
    - dictionaries keyed by extended nodes are total functions; float('inf') is [None];
    - arithmetic is exact (Q); a division by zero is [Err ZeroDivisionError];
    - the nodes are those of [xg_nodes]; a key None that [nodes[origin]] adds to the default
      dictionary when the origin is not served (line 62 or 329) is not kept between calls;
    - while loops take fuel and answer [Err NonTermination] when it runs out;
    - the functions that print are in Texts.v (463-488) and HyperText.v (257-308, 366-391), the one that plots
      is in Plot.v (490-559). *)
From Coq Require Import String List ZArith QArith Bool.
From Verif Require Import PyBase PyStr Graph Mode Route ExtGraph.
Import ListNotations.
Local Open Scope Q_scope.

(** passenger.py 24-54: a Passenger whose attributes are finite *)
Record qpass : Type := mkPass {
  q_va : Q; q_pv : Q; q_pw : Q; q_pa : Q; q_pt : Q; q_spv : Q; q_spw : Q; q_spa : Q; q_spt : Q
}.

(** floats that are finite or +inf *)
Definition olt (a b : option Q) : bool :=
  match a, b with Some x, Some y => Qltb x y | Some _, None => true | None, _ => false end.
(** min(a, b): a unless b is smaller *)
Definition omin (a b : option Q) : option Q := if olt b a then b else a.
Definition oadd (x : Q) (b : option Q) : option Q := match b with Some y => Some (x + y) | None => None end.
Definition upd {A} (f : enode -> A) (n : enode) (v : A) : enode -> A := fun m => if enode_eqb m n then v else f m.
Definition onode_is (o : option enode) (n : enode) : bool := match o with Some m => enode_eqb n m | None => false end.

(** the keys of [labels] in insertion order (109-129) *)
Definition tree_nodes (t : xtree) : list enode :=
  flat_map (fun '(c, d) => EC c :: flat_map (fun '(s, l) => ES s :: map ER l) d) t.

(** [n.mode.theta], [n.city_node]: only a StopNode has these attributes *)
Definition theta_of (X : xgraph) (n : enode) : res Q :=
  match n with ES s => Ok (m_theta (sn_mode (stop_at (xg_stops X) s))) | _ => Err AttributeError end.
Definition city_of (X : xgraph) (n : enode) : res enode :=
  match n with ES s => Ok (EC (sn_city (stop_at (xg_stops X) s))) | _ => Err AttributeError end.

(** local variables of build_hyperpath_graph (96-104) *)
Record hstate : Type := mkH {
  h_lab : enode -> option Q;
  h_inf : enode -> option Q;
  h_suc : enode -> list xedge;
  h_sinf : enode -> option xedge;
  h_frq : enode -> Q;
  h_S : list (option enode)
}.
Definition val (st : hstate) (n : enode) : option Q := omin (h_lab st n) (h_inf st n).

(** 106-129 *)
Definition h_init (dest : option enode) : hstate :=
  mkH (fun n => if onode_is dest n then Some 0 else None) (fun n => if onode_is dest n then Some 0 else None)
      (fun _ => []) (fun _ => None) (fun _ => 0) [].

(** 134-140: the first node outside S with the smallest label, None if all labels are infinite *)
Definition settled (S : list (option enode)) (n : enode) : bool := existsb (fun o => onode_is o n) S.
Definition choose (nodes : list enode) (st : hstate) : option enode :=
  fst (fold_left (fun '(best, mn) n =>
        if settled (h_S st) n then (best, mn)
        else if olt (val st n) mn then (Some n, val st n) else (best, mn)) nodes (None, None)).

(** 146-155 *)
Definition edges_into (edges : list xedge) (origin : option enode) (S : list (option enode)) (j : option enode) : list xedge :=
  filter (fun e => negb (onode_is origin (x_i e)) && negb (onode_is origin (x_j e)) &&
                   (negb (settled S (x_i e)) && onode_is j (x_j e))) edges.

(** 160-165 *)
Definition edge_time (X : xgraph) (P : qpass) (dest : option enode) (e : xedge) : res Q :=
  let* t := match x_type e with
            | ALIGHTING => let* c := city_of X (x_j e) in Ok (if onode_is dest c then 0 else x_t e)
            | _ => Ok (x_t e)
            end in
  match x_type e with
  | ACCESS => qdiv (x_t e * q_pa P) (q_pv P)
  | _ => Ok t
  end.
(** 198-203: the test of line 200 looks at [edge], not at [edge_b] *)
Definition edge_b_time (X : xgraph) (P : qpass) (dest : option enode) (e b : xedge) : res Q :=
  let* t := match x_type b with
            | ALIGHTING => let* c := city_of X (x_j e) in Ok (if onode_is dest c then 0 else x_t b)
            | _ => Ok (x_t b)
            end in
  match x_type b with
  | ACCESS => qdiv (x_t b * q_pa P) (q_pv P)
  | _ => Ok t
  end.

(** list.remove: the first element that is the same edge *)
Fixpoint remove_edge (b : xedge) (l : list xedge) : list xedge :=
  match l with [] => [] | e :: l' => if xedge_eqb e b then l' else e :: remove_edge b l' end.
Definition set_inf st n v e := mkH (h_lab st) (upd (h_inf st) n v) (h_suc st) (upd (h_sinf st) n (Some e)) (h_frq st) (h_S st).
Definition set_strategy st n v l f := mkH (upd (h_lab st) n v) (h_inf st) (upd (h_suc st) n l) (h_sinf st) (upd (h_frq st) n f) (h_S st).

(** 194-212: the for loop over successor[i], from whose list it removes; [l] is what the iterator
    has not yet seen (removing the current element makes it skip the next one) *)
Fixpoint verify (X : xgraph) (P : qpass) (dest : option enode) (e : xedge) (l : list xedge) (st : hstate) : res hstate :=
  match l with
  | [] => Ok st
  | b :: l' =>
      if xedge_eqb b e then verify X P dest e l' st
      else
        let i := x_i e in
        let* tb := edge_b_time X P dest e b in
        let t := match val st (x_j b) with Some v => Some (v + tb) | None => None end in
        if negb (olt t (h_lab st i)) then
          match t, h_lab st i, x_f b with
          | Some tq, Some x, Some f =>
              let* x' := qdiv (h_frq st i * x - f * tq) (h_frq st i - f) in
              let st' := set_strategy st i (Some x') (remove_edge b (h_suc st i)) (h_frq st i - f) in
              match l' with [] => Ok st' | _ :: l'' => verify X P dest e l'' st' end
          | _, _, _ => Err NotModelled (* inf - inf and similar float values: proved unreachable *)
          end
        else verify X P dest e l' st
  end.

(** 158-212: one iteration of the loop over edge_j *)
Definition relax (X : xgraph) (P : qpass) (dest : option enode) (st : hstate) (e : xedge) : res hstate :=
  let i := x_i e in
  let* t0 := edge_time X P dest e in
  let T := oadd t0 (val st (x_j e)) in
  let* st := match x_f e with
    | None => Ok (if olt T (h_inf st i) then set_inf st i T e else st)
    | Some f =>
        match T with
        | None => Ok st
        | Some t =>
            if olt T (h_lab st i) then
              let* theta := theta_of X i in
              if Qeqb (h_frq st i) 0 && (match h_lab st i with None => true | _ => false end) && negb (Qeqb f 0) then
                let* w := qdiv (theta * q_pw P) (q_pv P) in
                let* x := qdiv (w + f * t) f in
                Ok (set_strategy st i (Some x) (h_suc st i ++ [e]) (h_frq st i + f))
              else if negb (Qeqb f 0) then
                match h_lab st i with
                | None => Err NotModelled (* frequency * inf: proved unreachable *)
                | Some x0 =>
                    let* x := qdiv (h_frq st i * x0 + f * t) (h_frq st i + f) in
                    Ok (set_strategy st i (Some x) (h_suc st i ++ [e]) (h_frq st i + f))
                end
              else Ok st
            else Ok st
        end
    end in
  verify X P dest e (h_suc st i) st.

(** 132-212: one iteration of the while loop *)
Definition h_step (X : xgraph) (P : qpass) (origin dest : option enode) (st : hstate) : res hstate :=
  let j := choose (tree_nodes (xg_nodes X)) st in
  let st := mkH (h_lab st) (h_inf st) (h_suc st) (h_sinf st) (h_frq st) (h_S st ++ [j]) in
  foldM (relax X P dest) (edges_into (xg_edges X) origin (h_S st) j) st.
Fixpoint h_loop (fuel : nat) (X : xgraph) (P : qpass) (origin dest : option enode) (st : hstate) : res hstate :=
  if Nat.eqb (length (h_S st)) (length (tree_nodes (xg_nodes X))) then Ok st
  else match fuel with
       | O => Err NonTermination
       | S k => let* st := h_step X P origin dest st in h_loop k X P origin dest st
       end.

(** the values returned by build_hyperpath_graph *)
Record hresult : Type := mkHR { hr_suc : enode -> list xedge; hr_lab : enode -> option Q; hr_frq : enode -> Q }.

(** 214-255: the strategy kept at each node.  A stop listed under nodes[city_node] has that
    city_node as its own (Props_Ext.C30_nodes_exact), so the test of 232, 239 is on it. *)
Definition reduce (X : xgraph) (P : qpass) (origin : option enode) (st : hstate) : res hresult :=
  let suc n := if olt (h_lab st n) (h_inf st n) then h_suc st n
               else match h_sinf st n with Some e => [e] | None => [] end in
  let base n := if olt (h_lab st n) (h_inf st n) then h_lab st n else h_inf st n in
  let* lab := foldM (fun lab n =>
      match n with
      | ES s => if onode_is origin (EC (sn_city (stop_at (xg_stops X) s))) then
                  let* a := qdiv (m_tat (sn_mode (stop_at (xg_stops X) s)) / 60 * q_pa P) (q_pv P) in
                  Ok (upd lab n (match base n with Some q => Some (q + a) | None => None end))
                else Ok lab
      | _ => Ok lab
      end) (tree_nodes (xg_nodes X)) base in
  Ok (mkHR suc lab (h_frq st)).

(** 83-255 (build_hyperpath_graph) *)
Definition build_hyperpath (fuel : nat) (X : xgraph) (P : qpass) (origin dest : option enode) : res hresult :=
  let* st := h_loop fuel X P origin dest (h_init dest) in
  reduce X P origin st.

(** 334-359; paths are kept with their last node first *)
Definition at_dest (dest : option enode) (p : list enode) : bool :=
  match p with x :: _ => onode_is dest x | [] => false end.
Definition extend (suc : enode -> list xedge) (dest : option enode) (p : list enode) : list (list enode) :=
  if at_dest dest p then [p]
  else match p with
       | x :: _ => map (fun e => x_j e :: p) (suc x)
       | [] => []
       end.
Fixpoint expand (fuel : nat) (suc : enode -> list xedge) (dest : option enode) (ps : list (list enode)) : res (list (list enode)) :=
  if forallb (at_dest dest) ps then Ok ps
  else match fuel with
       | O => Err NonTermination
       | S k => expand k suc dest (flat_map (extend suc dest) ps)
       end.
(** [nodes[origin]]: the stops of the origin (an unserved origin, None, has none) *)
Definition stops_at (X : xgraph) (n : option enode) : list nat :=
  match n with Some (EC c) => map fst (dget0 Nat.eqb [] (xg_nodes X) c) | _ => [] end.
(** 310-364 (get_hyperpath_OD): the dictionary of elementary paths has a key only for the stops with
    at least one path (361-362) *)
Definition hyperpath_OD (fuel : nat) (X : xgraph) (P : qpass) (origin dest : option enode)
  : res (list (nat * list (list enode)) * hresult) :=
  let* R := build_hyperpath fuel X P origin dest in
  let* hp := foldM (fun acc s =>
     match origin with
     | None => Ok acc
     | Some o =>
       let* ps := expand fuel (hr_suc R) dest [[ES s; o]] in
       Ok (match ps with [] => acc | _ => acc ++ [(s, map (@rev enode) ps)] end)
     end) (stops_at X origin) [] in
  Ok (hp, R).

(** 50-56, 417-423: the city node with that id (the last one found) *)
Definition find_city (X : xgraph) (z : Z) : option enode :=
  fold_left (fun acc '(c, _) => if (z =? nd_id (gnode (xg_graph X) c))%Z then Some (EC c) else acc) (xg_nodes X) None.
(** OD pairs with trips, in the order of the loops 46-49 *)
Definition od_pairs (M : dict2) : list (Z * Z * Q) :=
  filter (fun '(_, _, v) => negb (Qeqb v 0)) (flat_map (fun '(o, row) => map (fun '(d, v) => (o, d, v)) row) M).

(** 69-74 *)
Definition list_modes (X : xgraph) : list mode :=
  fold_left (fun l '(c, s) => let m := sn_mode (stop_at (xg_stops X) s) in
     if existsb (fun m' => mode_eqb m' m) l then l else l ++ [m]) (tree_pairs (xg_nodes X)) [].
(** 76-81; the manager and its objects are those of Mode.v *)
Definition modes_valid (l : list mode) : res bool :=
  let* w := foldM (fun w ref => match add_mode w ref with (w', None) => Ok w' | (_, Some e) => Err e end)
              (seq 0 (length l)) (mkWorld (map tmode_of l) empty_manager) in
  is_valid_to_assignment_step (map (fun ref => tm_d (nth ref (w_heap w) blank)) (mg_modes (w_mgr w))).

(** 37-81 (network_validator) *)
Definition network_validator (fuel : nat) (X : xgraph) (P : qpass) (M : dict2) : res bool :=
  let* _ := foldM (fun _ '(o, d, v) =>
     let origin := find_city X o in
     let dest := find_city X d in
     let* R := build_hyperpath fuel X P origin dest in
     if existsb (fun s => match hr_lab R (ES s) with Some _ => true | None => false end) (stops_at X origin)
     then Ok tt else Err TransportNetworkException) (od_pairs M) tt in
  modes_valid (list_modes X).

(** 393-460 (get_all_hyperpaths): the five dictionaries as one list of entries, by OD pair *)
Record od_entry : Type := mkOD {
  od_o : option enode; od_d : option enode; od_v : Q; od_paths : list (nat * list (list enode)); od_res : hresult
}.
Definition get_all_hyperpaths (fuel : nat) (X : xgraph) (P : qpass) (M : dict2) : res (list od_entry) :=
  let* ok := network_validator fuel X P M in
  if (ok : bool) then
    mapM (fun '(o, d, v) =>
      let* r := hyperpath_OD fuel X P (find_city X o) (find_city X d) in
      Ok (mkOD (find_city X o) (find_city X d) v (fst r) (snd r))) (od_pairs M)
  else Err TransportNetworkIsNotValidException.
