(** * Costs: model of /repo/sidermit/optimization/operators_cost.py, infrastructure_cost.py and constrains.py

    Simplifications, valid for the whole file: exact arithmetic (Q); z, v and the other default dictionaries
    are those of Assignment.v; reading a missing key inserts the default value, which is modelled where a
    later loop can see it (the tables z and v in get_cycle_time). *)
From Coq Require Import String List ZArith QArith Bool.
From Verif Require Import PyBase PyStr Graph Mode Route Network ExtGraph Hyperpath Assignment.
Import ListNotations.
Local Open Scope Q_scope.

(** ** operators_cost.py *)
(** operators_cost.py 29-35 and 38-44: the loop over one sequence of nodes; a pair that is not a key of
    the default dictionary reads 0 *)
Definition dist0 (D : dict2) (i j : Z) : Q := match dict2_get D i j with Some q => q | None => 0 end.
Definition seq_time (D : dict2) (v : Q) (l : list Z) (tv : Q) : res Q :=
  foldM (fun tv '(i, j) => let* q := qdiv (dist0 D i j) v in Ok (tv + q)) (arcs_of l) tv.
(** operators_cost.py 13-48 (lines_travel_time) *)
Definition lines_travel_time (rs : list route) (D : dict2) : res fdict :=
  foldM (fun d r =>
    let* tv := seq_time D (m_v (r_mode r)) (r_ni r) 0 in
    let* tv := seq_time D (m_v (r_mode r)) (r_nr r) tv in
    Ok (dset String.eqb d (r_id r) tv)) rs [].

(** a read of t[r][d][s] inserts the key *)
Definition tread (t : tab) (r : string) (d : dir) (s : nat) : tab := tset t r d s (tget t r d s).
(** operators_cost.py 73-80 for one direction: sequential boarding and alighting *)
Definition dwell_seq (t : Q) (z v : tab) (r : string) (d : dir) (tc : Q) : Q :=
  let tc := fold_left (fun tc s => tc + t * tget z r d s) (map fst (trow z r d)) tc in
  fold_left (fun tc s => tc + t * tget v r d s) (map fst (trow v r d)) tc.
(** operators_cost.py 84-97 for one direction: simultaneous boarding and alighting *)
Definition dwell_sim (t : Q) (z v : tab) (r : string) (d : dir) (tc : Q) : Q * tab * tab :=
  let processed := map fst (trow z r d) in
  let '(tc, v) := fold_left (fun '(tc, v) s => (tc + t * Qmaxb (tget z r d s) (tget v r d s), tread v r d s))
                    processed (tc, v) in
  let '(tc, z) := fold_left (fun '(tc, z) s =>
                     if existsb (Nat.eqb s) processed then (tc, z)
                     else (tc + t * Qmaxb (tget z r d s) (tget v r d s), tread z r d s))
                    (map fst (trow v r d)) (tc, z) in
  (tc, z, v).
(** operators_cost.py 64-101: one route; [tt] is line_travel_time *)
Definition cycle_route (tt : fdict) (st : fdict * tab * tab) (r : route) : fdict * tab * tab :=
  let '(ct, z, v) := st in
  let t := m_t (r_mode r) / 3600 in
  let tc := freq tt (r_id r) in
  let tc := if Qeqb (m_bya (r_mode r)) 0
            then dwell_seq t z v (r_id r) DR (dwell_seq t z v (r_id r) DI tc) else tc in
  let '(tc, z, v) :=
    if Qeqb (m_bya (r_mode r)) 1 then
      let '(tc, z, v) := dwell_sim t z v (r_id r) DI tc in dwell_sim t z v (r_id r) DR tc
    else (tc, z, v) in
  (dset String.eqb ct (r_id r) tc, z, v).
(** operators_cost.py 51-103 (get_cycle_time): the cycle times and the tables z, v after the call *)
Definition get_cycle_time (z v : tab) (rs : list route) (tt : fdict) : fdict * tab * tab :=
  fold_left (cycle_route tt) rs ([], z, v).

(** operators_cost.py 105-136 (get_operators_cost) *)
Definition get_operators_cost (rs : list route) (ct f k : fdict) : Q :=
  fold_left (fun co r =>
    if Qeqb (freq f (r_id r)) 0 then co
    else co + (m_co (r_mode r) + m_c1 (r_mode r) * freq k (r_id r)) * freq f (r_id r) * freq ct (r_id r)) rs 0.

(** ** infrastructure_cost.py *)
Definition arc_in (a : Z * Z) (l : list (Z * Z)) : bool := existsb (fun b => (fst a =? fst b)%Z && (snd a =? snd b)%Z) l.
(** infrastructure_cost.py 38-45 and 48-55: some position of the sequence goes over the edge, which was not
    counted yet *)
Definition seq_hits (a : Z * Z) (l : list Z) (seen : list (Z * Z)) : bool := arc_in a (arcs_of l) && negb (arc_in a seen).
(** infrastructure_cost.py 31-57: one edge (a pair of node ids) of length [de]; the state is the distance of the
    mode (None: no key yet) and edge_list; the loop over the routes is left when the edge was counted *)
Fixpoint count_edge (m : mode) (f : fdict) (a : Z * Z) (de : Q) (rs : list route) (st : option Q * list (Z * Z)) : option Q * list (Z * Z) :=
  match rs with
  | [] => st
  | r :: rs' =>
      if mode_eqb (r_mode r) m && negb (Qeqb (freq f (r_id r)) 0) && (seq_hits a (r_ni r) (snd st) || seq_hits a (r_nr r) (snd st))
      then (Some ((match fst st with Some q => q | None => 0 end) + de * m_d m), snd st ++ [a; (snd a, fst a)])
      else count_edge m f a de rs' st
  end.
(** infrastructure_cost.py 10-59 (get_mode_network_distance); the edges are given by the ids of their nodes *)
Definition edge_pairs (g : graph) : list (Z * Z) :=
  flat_map (fun e => match edge_ends g e with Some p => [p] | None => [] end) (g_edges g).
Definition mode_distance (D : dict2) (g : graph) (rs : list route) (f : fdict) (m : mode) (dm : option Q) : option Q :=
  fst (fold_left (fun st a => count_edge m f a (dist0 D (fst a) (snd a)) rs st) (edge_pairs g) (dm, [])).
Definition get_mode_network_distance (G : geo) (g : graph) (nw : network) (f : fdict) : list (mode * Q) :=
  let D := get_edges_distance G g in
  fold_left (fun acc m =>
    match mode_distance D g (nw_routes nw) f m (dget mode_eqb acc m) with
    | Some q => dset mode_eqb acc m q
    | None => acc
    end) (nw_modes nw) [].
(** infrastructure_cost.py 61-82 (get_infrastruture_cost) *)
Definition get_infrastructure_cost (G : geo) (g : graph) (nw : network) (f : fdict) : Q :=
  fold_left (fun ci '(m, q) => ci + m_c2 m * q) (get_mode_network_distance G g nw f) 0.

(** ** constrains.py *)
(** constrains.py 12-30 (most_loaded_section_constrains) *)
Definition most_loaded_constrains (rs : list route) (ml : fdict) : list Q :=
  map (fun r => freq ml (r_id r) - m_kmax (r_mode r)) rs.
(** constrains.py 58-66: one sequence of nodes; ids are compared as strings *)
Definition seq_freq (a : Z * Z) (l : list Z) (fr d : Q) (sum : Q) : res Q :=
  foldM (fun s '(i, j) =>
    if (str_of_Z (fst a) =? str_of_Z i)%string && (str_of_Z (snd a) =? str_of_Z j)%string
    then let* q := qdiv fr d in Ok (s + q) else Ok s) (arcs_of l) sum.
(** constrains.py 47-67: one edge and one mode *)
Definition edge_mode_constrain (rs : list route) (f : fdict) (a : Z * Z) (m : mode) : res Q :=
  let* fmax := qdiv (m_fmax m) (m_d m) in
  let* s := foldM (fun s r =>
      if mode_eqb (r_mode r) m && negb (Qeqb (freq f (r_id r)) 0) then
        let* s := seq_freq a (r_ni r) (freq f (r_id r)) (m_d m) s in
        seq_freq a (r_nr r) (freq f (r_id r)) (m_d m) s
      else Ok s) rs 0 in
  Ok (s - fmax).
(** constrains.py 32-69 (fmax_constrains) *)
Definition fmax_constrains (g : graph) (rs : list route) (ms : list mode) (f : fdict) : res (list Q) :=
  let* l := mapM (fun a => mapM (edge_mode_constrain rs f a) ms) (edge_pairs g) in
  Ok (concat l).
