(** * Predef: model of the predefined routes of /repo/sidermit/publictransportsystem/network.py
    (lines 353-688).  Strings are built and parsed as in the code. *)
From Coq Require Import String Ascii List ZArith QArith Bool.
From Verif Require Import PyBase PyStr Graph Route.
Import ListNotations.
Local Open Scope string_scope.

(** "{},{},...".format(ids...) *)
Definition fmt (l : list Z) : string := String.concat "," (map str_of_Z l).

(** list indexing with a Python int (negative indices count from the end) *)
Definition py_nthZ {A} (l : list A) (i : Z) : res A :=
  if (i <? 0)%Z then
    if (Z.of_nat (length l) + i <? 0)%Z then Err IndexError
    else py_nth l (Z.to_nat (Z.of_nat (length l) + i))
  else py_nth l (Z.to_nat i).

(** zone.periphery.id and zone.subcenter.id *)
Definition zone_ids (g : graph) (z : zone) : res (Z * Z) :=
  let* p := py_nth (g_nodes g) (z_p z) in
  let* sc := py_nth (g_nodes g) (z_sc z) in
  Ok (nd_id p, nd_id sc).
(** get_cbd().id (None has no attribute id) *)
Definition cbd_id (g : graph) : res Z :=
  match get_cbd g with Some n => Ok (nd_id n) | None => Err AttributeError end.

(** network.py 353-395 (get_circular_routes) *)
Definition get_circular_routes (g : graph) (m : mode) : res (list route) :=
  let zones := g_zones g in
  let n := length zones in
  raise_if (Nat.leb n 1) CircularRouteIsNotValidException (
  let name := m_name m in
  let id_i := "CIR_I_" ++ name in
  let id_r := "CIR_R_" ++ name in
  let* seqs := foldM (fun acc i =>
      let '(si, sr) := acc in
      let* zi := py_nth zones i in
      let* zr := py_nth zones (n - 1 - i) in
      let* a := zone_ids g zi in
      let* b := zone_ids g zr in
      match si with
      | EmptyString => Ok (si ++ str_of_Z (snd a), sr ++ str_of_Z (snd b))
      | _ => Ok (si ++ "," ++ str_of_Z (snd a), sr ++ "," ++ str_of_Z (snd b))
      end) (seq 0 n) ("", "") in
  let* z0 := py_nth zones 0 in
  let* zl := py_nth zones (n - 1) in
  let* a := zone_ids g z0 in
  let* b := zone_ids g zl in
  let si := fst seqs ++ "," ++ str_of_Z (snd a) in
  let sr := snd seqs ++ "," ++ str_of_Z (snd b) in
  let* r1 := new_route (Some id_i) (Some m) (Some si) (Some "") (Some si) (Some "") CIRCULAR in
  let* r2 := new_route (Some id_r) (Some m) (Some "") (Some sr) (Some "") (Some sr) CIRCULAR in
  Ok [r1; r2]).

(** network.py 397-426 (get_feeder_routes) *)
Definition get_feeder_routes (g : graph) (m : mode) : res (list route) :=
  mapM (fun z =>
    let* ids := zone_ids g z in
    let '(id_p, id_sc) := ids in
    let rid := "F_" ++ m_name m ++ "_" ++ str_of_Z (z_id z) in
    let ni := fmt [id_p; id_sc] in
    let nr := fmt [id_sc; id_p] in
    new_route (Some rid) (Some m) (Some ni) (Some nr) (Some ni) (Some nr) PREDEFINED) (g_zones g).

(** network.py 428-477 (get_radial_routes) *)
Definition get_radial_routes (g : graph) (m : mode) (short express : bool) : res (list route) :=
  let* id_cbd := cbd_id g in
  mapM (fun z =>
    let* ids := zone_ids g z in
    let '(id_p, id_sc) := ids in
    let suffix := "_" ++ m_name m ++ "_" ++ str_of_Z (z_id z) in
    let '(rid, ni, si, nr, sr) :=
      if short then
        let ni := fmt [id_sc; id_cbd] in let nr := fmt [id_cbd; id_sc] in
        ("RS" ++ suffix, ni, ni, nr, nr)
      else if express then
        ("RE" ++ suffix, fmt [id_p; id_sc; id_cbd], fmt [id_p; id_cbd],
         fmt [id_cbd; id_sc; id_p], fmt [id_cbd; id_p])
      else
        let ni := fmt [id_p; id_sc; id_cbd] in let nr := fmt [id_cbd; id_sc; id_p] in
        ("R" ++ suffix, ni, ni, nr, nr) in
    new_route (Some rid) (Some m) (Some ni) (Some nr) (Some si) (Some sr) PREDEFINED) (g_zones g).

(** network.py 502-507, 581-586: the jump check and the number of routes *)
Definition jump_end (g : graph) (jump : Z) : res nat :=
  let n := length (g_zones g) in
  raise_if ((Z.of_nat n <? 2 * jump)%Z || (jump <=? 0)%Z) JumpIsNotValidException (
  if Nat.even n && (jump =? Z.of_nat (n / 2))%Z then Ok (n / 2)%nat else Ok n).

(** network.py 517-523, 596-602: the zone [jump] places further *)
Definition zone2_id (n : nat) (zid jump : Z) : Z :=
  if (zid + jump <=? Z.of_nat n)%Z then (zid + jump)%Z else (zid + jump - Z.of_nat n)%Z.

(** network.py 479-557 (get_diametral_routes) *)
Definition get_diametral_routes (g : graph) (m : mode) (jump : Z) (short express : bool) : res (list route) :=
  let* id_cbd := cbd_id g in
  let zones := g_zones g in
  let* en := jump_end g jump in
  mapM (fun z =>
    let* ids := zone_ids g z in
    let '(id_p, id_sc) := ids in
    let* z2 := py_nthZ zones (zone2_id (length zones) (z_id z) jump - 1) in
    let* ids2 := zone_ids g z2 in
    let '(id_p2, id_sc2) := ids2 in
    let suffix := str_of_Z jump ++ "_" ++ m_name m ++ "_" ++ str_of_Z (z_id z) in
    let '(rid, ni, si, nr, sr) :=
      if short then
        let ni := fmt [id_sc; id_cbd; id_sc2] in let nr := fmt [id_sc2; id_cbd; id_sc] in
        if express then ("DSE" ++ suffix, ni, fmt [id_sc; id_sc2], nr, fmt [id_sc2; id_sc])
        else ("DS" ++ suffix, ni, ni, nr, nr)
      else
        let ni := fmt [id_p; id_sc; id_cbd; id_sc2; id_p2] in
        let nr := fmt [id_p2; id_sc2; id_cbd; id_sc; id_p] in
        if express then ("DE" ++ suffix, ni, fmt [id_p; id_p2], nr, fmt [id_p2; id_p])
        else ("D" ++ suffix, ni, ni, nr, nr) in
    new_route (Some rid) (Some m) (Some ni) (Some nr) (Some si) (Some sr) PREDEFINED) (firstn en zones).

(** range(a, b) on ints *)
Definition zrange (a b : Z) : list Z := map (fun k => (a + Z.of_nat k)%Z) (seq 0 (Z.to_nat (b - a))).

(** network.py 605-617: ids of the zones strictly between the two *)
Definition between_zones (n : nat) (zid z2id jump : Z) : list Z :=
  (if (zid <? z2id)%Z && negb (jump =? 1)%Z then zrange (zid + 1) z2id else []) ++
  (if (z2id <? zid)%Z then
     (if negb (zid =? Z.of_nat n)%Z then zrange (zid + 1) (Z.of_nat n + 1) else []) ++ zrange 1 z2id
   else []).

(** network.py 626-631 (also 644-649, 658-663, 673-678): appending the intermediate subcenters *)
Definition append_between (g : graph) (ids : list Z) (si sr : string) : res (string * string) :=
  foldM (fun acc i =>
      let* a := py_nth ids i in
      let* b := py_nth ids (length ids - 1 - i) in
      let* z3 := py_nthZ (g_zones g) (a - 1) in
      let* z4 := py_nthZ (g_zones g) (b - 1) in
      let* i3 := zone_ids g z3 in
      let* i4 := zone_ids g z4 in
      Ok (fst acc ++ "," ++ str_of_Z (snd i3), snd acc ++ "," ++ str_of_Z (snd i4)))
    (seq 0 (length ids)) (si, sr).

(** network.py 559-688 (get_tangencial_routes) *)
Definition get_tangencial_routes (g : graph) (m : mode) (jump : Z) (short express : bool) : res (list route) :=
  let zones := g_zones g in
  let* en := jump_end g jump in
  mapM (fun z =>
    let* ids := zone_ids g z in
    let '(id_p, id_sc) := ids in
    let z2id := zone2_id (length zones) (z_id z) jump in
    let* z2 := py_nthZ zones (z2id - 1) in
    let* ids2 := zone_ids g z2 in
    let '(id_p2, id_sc2) := ids2 in
    let between := between_zones (length zones) (z_id z) z2id jump in
    let suffix := str_of_Z jump ++ "_" ++ m_name m ++ "_" ++ str_of_Z (z_id z) in
    let* sq :=
      if short then append_between g between (str_of_Z id_sc) (str_of_Z id_sc2)
      else append_between g between (fmt [id_p; id_sc]) (fmt [id_p2; id_sc2]) in
    let ni := fst sq ++ "," ++ (if short then fmt [id_sc2] else fmt [id_sc2; id_p2]) in
    let nr := snd sq ++ "," ++ (if short then fmt [id_sc] else fmt [id_sc; id_p]) in
    let '(rid, si, sr) :=
      if short then
        if express then ("TSE" ++ suffix, fmt [id_sc; id_sc2], fmt [id_sc2; id_sc])
        else ("TS" ++ suffix, ni, nr)
      else
        if express then ("TE" ++ suffix, fmt [id_p; id_p2], fmt [id_p2; id_p])
        else ("T" ++ suffix, ni, nr) in
    new_route (Some rid) (Some m) (Some ni) (Some nr) (Some si) (Some sr) PREDEFINED) (firstn en zones).
