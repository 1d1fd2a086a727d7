(** * Assignment: model of /repo/sidermit/optimization/preoptimization/assignment.py

    Simplifications, valid for the whole file:
    - the dictionaries hyperpaths, labels, successors and Vij, which have the same keys
      [origin][destination], are one list of entries (Hyperpath.od_entry); the dictionary
      assignment has one list of (stop, percentage) per entry, in the same order;
    - the keys [route_id][direction][stop] are nested association lists in insertion order;
    - f is a default dictionary (a missing route has frequency 0), as fopt_to_f returns;
    - arithmetic is exact (Q); the while loop takes fuel;
    - str_boarding_alighting (239-264) is in Texts.v. *)
From Coq Require Import String List ZArith QArith Qround Bool.
From Verif Require Import PyBase PyStr Graph Mode Route ExtGraph Hyperpath.
Import ListNotations.
Local Open Scope Q_scope.

Definition fdict : Type := list (string * Q).
Definition freq (f : fdict) (r : string) : Q := dget0 String.eqb 0 f r.

(** dic[route_id][direction][stop] *)
Definition tab : Type := list (string * list (dir * list (nat * Q))).
Definition trow (t : tab) (r : string) (d : dir) : list (nat * Q) := dget0 dir_eqb [] (dget0 String.eqb [] t r) d.
Definition tget (t : tab) (r : string) (d : dir) (s : nat) : Q := dget0 Nat.eqb 0 (trow t r d) s.
Definition tset (t : tab) (r : string) (d : dir) (s : nat) (q : Q) : tab :=
  dset String.eqb t r (dset dir_eqb (dget0 String.eqb [] t r) d (dset Nat.eqb (trow t r d) s q)).
(** t[r][d][s] += q *)
Definition tadd (t : tab) (r : string) (d : dir) (s : nat) (q : Q) : tab := tset t r d s (tget t r d s + q).

(** 61-68: (stop1, stop2) *)
Definition pick_stops (X : xgraph) (stops : list nat) : option nat * option nat :=
  fold_left (fun '(s1, s2) s =>
     if Qeqb (m_d (sn_mode (stop_at (xg_stops X) s))) 1
     then match s1 with None => (Some s, s2) | Some _ => (s1, Some s) end
     else (s1, Some s)) stops (None, None).

(** 94-107: the loop over the stops at the right of stop1; the last position reached, and whether it
    is farther than [d] (the loop was left by break) *)
Fixpoint right_stops (n : nat) (first : bool) (zone d position : Q) : Q * bool :=
  match n with
  | O => (position, false)
  | S n' =>
      let position := if first then zone / 2 else position + zone in
      if Qltb d position then (position, true) else right_stops n' false zone d position
  end.

(** 78-128: both stops exist; [l1], [l2] are their labels *)
Definition share_two (d2 p vp spa spv l1 l2 : Q) (s1 s2 : nat) : res (list (nat * Q)) :=
  if Qleb l1 l2 then
    let* w := qdiv spa spv in
    let* d := qdiv (vp * (l2 - l1)) w in
    if Qleb (p / 2) d then Ok [(s1, 100)]
    else
      let* zone := qdiv p d2 in
      let '(position, found) := right_stops (Z.to_nat (Qfloor (d2 / 2))) true zone d 0 in
      if found then
        let* a := qdiv (2 * d + (position - d)) p in
        Ok [(s1, a * 100); (s2, 100 - a * 100)]
      else if Qltb position d then Ok [(s1, 100)] else Ok []
  else if Qeqb (d2 - 2 * inject_Z (Qfloor (d2 / 2))) 1 then Ok [(s2, 100)]
  else
    let* w := qdiv spa spv in
    let* d := qdiv (vp * (l1 - l2)) w in
    let* zone := qdiv p d2 in
    let position := zone * (1 # 2) in
    if Qleb position d then Ok [(s2, 100)]
    else
      let* a := qdiv (position - d) p in
      Ok [(s1, a * 100); (s2, 100 - a * 100)].

(** 50-129 for one OD pair (get_assignment); a stop with an elementary path has a finite label
    (Props_Hyper.C37), so [NotModelled] is unreachable *)
Definition assign_od (X : xgraph) (p vp spa spv : Q) (e : od_entry) : res (list (nat * Q)) :=
  match pick_stops X (map fst (od_paths e)) with
  | (None, None) => Ok []
  | (Some s1, None) => Ok [(s1, 100)]
  | (None, Some s2) => Ok [(s2, 100)]
  | (Some s1, Some s2) =>
      match hr_lab (od_res e) (ES s1), hr_lab (od_res e) (ES s2) with
      | Some l1, Some l2 => share_two (m_d (sn_mode (stop_at (xg_stops X) s2))) p vp spa spv l1 l2 s1 s2
      | _, _ => Err NotModelled
      end
  end.
Definition get_assignment (X : xgraph) (p vp spa spv : Q) (es : list od_entry) : res (list (list (nat * Q))) :=
  mapM (assign_od X p vp spa spv) es.

(** the three tables z, v, loaded_section_route *)
Record tables : Type := mkT { t_z : tab; t_v : tab; t_l : tab }.
Definition rid (X : xgraph) (k : nat) : string := r_id (rn_route (rnode_at (xg_rnodes X) k)).
Definition rdir (X : xgraph) (k : nat) : dir := rn_dir (rnode_at (xg_rnodes X) k).

(** 183-186: f_acum; [suc.nodej.route] exists only for a RouteNode *)
Definition f_acum (X : xgraph) (f : fdict) (l : list xedge) : res Q :=
  foldM (fun a e => match x_j e with ER k => Ok (a + freq f (rid X k)) | _ => Err AttributeError end) l 0.
(** 176-188: dis_pax *)
Definition dis_pax (X : xgraph) (f : fdict) (suc : enode -> list xedge) (i j : enode) (pax : Q) : res Q :=
  match i, j with
  | ES s, ER k => let* fa := f_acum X f (suc i) in
                  let* sh := qdiv (freq f (rid X k)) fa in Ok (pax * sh)
  | _, _ => Ok pax
  end.
(** 190, 192-201; the stop of a RouteNode is set (Props_Ext.C30) *)
Definition record_flow (X : xgraph) (t : tables) (i j : enode) (q : Q) : tables :=
  match i, j with
  | ES s, ER k => mkT (tadd (t_z t) (rid X k) (rdir X k) s q) (t_v t) (t_l t)
  | ER k, ES s => mkT (t_z t) (tadd (t_v t) (rid X k) (rdir X k) s q) (t_l t)
  | ER k, ER _ => mkT (t_z t) (t_v t) (tadd (t_l t) (rid X k) (rdir X k) (rn_stop_at (xg_rnodes X) k) q)
  | _, _ => t
  end.
(** 204: [isinstance(nodej, StopNode) and nodej.city_node == destination] *)
Definition stop_of_dest (X : xgraph) (dest : option enode) (n : enode) : bool :=
  match n with ES s => onode_is dest (EC (sn_city (stop_at (xg_stops X) s))) | _ => false end.
(** 173-209: the while loop over [paths] *)
Fixpoint spread (fuel : nat) (X : xgraph) (f : fdict) (suc : enode -> list xedge) (dest : option enode)
  (paths : list (enode * enode * Q)) (t : tables) : res tables :=
  match paths with
  | [] => Ok t
  | (i, j, pax) :: rest =>
      match fuel with
      | O => Err NonTermination
      | S k =>
          let* q := dis_pax X f suc i j pax in
          let t := record_flow X t i j q in
          let paths := if stop_of_dest X dest j then rest
                       else rest ++ map (fun e => (j, x_j e, q)) (suc j) in
          spread k X f suc dest paths t
      end
  end.
(** 155-209: the loops over the OD pairs and their stops *)
Definition spread_stop (fuel : nat) (X : xgraph) (f : fdict) (e : od_entry) (a : list (nat * Q)) (t : tables) (s : nat) : res tables :=
  let vs := od_v e * dget0 Nat.eqb 0 a s / 100 in
  if Qeqb vs 0 then Ok t
  else spread fuel X f (hr_suc (od_res e)) (od_d e) (map (fun x => (ES s, x_j x, vs)) (hr_suc (od_res e) (ES s))) t.
Definition spread_od (fuel : nat) (X : xgraph) (f : fdict) (t : tables) (ea : od_entry * list (nat * Q)) : res tables :=
  foldM (spread_stop fuel X f (fst ea) (snd ea)) (map fst (od_paths (fst ea))) t.
(** 211-235 *)
Definition per_vehicle (f : fdict) (t : tab) : tab :=
  map (fun '(r, rows) => (r, map (fun '(d, row) =>
     (d, map (fun '(s, q) => (s, if Qeqb (freq f r) 0 then q else q / freq f r)) row)) rows)) t.
(** 131-237 (get_alighting_and_boarding) *)
Definition get_alighting_and_boarding (fuel : nat) (X : xgraph) (f : fdict) (es : list od_entry) (asg : list (list (nat * Q))) : res tables :=
  let* t := foldM (spread_od fuel X f) (combine es asg) (mkT [] [] []) in
  Ok (mkT (per_vehicle f (t_z t)) (per_vehicle f (t_v t)) (per_vehicle f (t_l t))).

(** 266-284 (most_loaded_section) *)
Definition most_loaded_section (t : tab) : list (string * Q) :=
  fold_left (fun acc '(r, rows) =>
    dset String.eqb acc r
      (fold_left (fun m '(_, row) => fold_left (fun m '(_, q) => if Qltb m q then q else m) row m) rows 0)) t [].
