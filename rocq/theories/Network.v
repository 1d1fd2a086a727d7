(** * Network: model of class TransportNetwork of /repo/sidermit/publictransportsystem/network.py
    (lines 193-351; the predefined routes are in Predef.v, plot is in Plot.v)

    Simplification: routes and modes are not mutated after they were handed to the network. *)
From Coq Require Import String Ascii List ZArith QArith Bool.
From Verif Require Import PyBase PyStr Graph Mode Route.
Import ListNotations.
Local Open Scope Q_scope.

(** network.py 195-203 *)
Record network : Type := mkNetwork {
  nw_graph : graph;
  nw_routes : list route;
  nw_ids : list string;
  nw_modes : list mode
}.
Definition new_network (g : graph) : network := mkNetwork g [] [] [].

(** network.py 205-215 (__edges_validator) *)
Fixpoint arcs_of (l : list Z) : list (Z * Z) :=
  match l with
  | a :: (b :: _) as t => (a, b) :: arcs_of t
  | _ => []
  end.
Definition edges_validator (g : graph) (l : list Z) : res bool :=
  raise_if (existsb (fun ab => negb (edge_exist g (fst ab) (snd ab))) (arcs_of l))
    NodeSequencesIsNotValidException (Ok true).

(** network.py 227-237 (get_route) *)
Definition get_route (nw : network) (rid : string) : res route :=
  match index_of rid (nw_ids nw) with
  | Some i => py_nth (nw_routes nw) i
  | None => Err RouteIdNotFoundException
  end.

Definition mode_in (m : mode) (l : list mode) : bool := existsb (mode_eqb m) l.

(** network.py 239-266 (add_transport_mode), with TransportModeManager.add_mode (mode.py 169-182)
    and is_valid_to_assignment_step (mode.py 123-140) *)
Definition add_transport_mode (nw : network) (m : mode) : network * option exn :=
  if mode_in m (nw_modes nw) then (nw, None)
  else
    let list_mode := fold_left (fun l x => if mode_in x l then l else l ++ [x]) (nw_modes nw) [m] in
    match (let* names := foldM (fun names x => if smem (m_name x) names then Err AddModeExceptions
                                               else Ok (names ++ [m_name x])) list_mode [] in
           is_valid_to_assignment_step (map (fun x => Fin (m_d x)) list_mode)) with
    | Ok true => (mkNetwork (nw_graph nw) (nw_routes nw) (nw_ids nw) (nw_modes nw ++ [m]), None)
    | Ok false => (nw, Some TransportModeException)
    | Err e => (nw, Some e)
    end.

(** network.py 308-319 (remove_route) *)
Definition remove_route (nw : network) (rid : string) : network * option exn :=
  match index_of rid (nw_ids nw) with
  | Some i => (mkNetwork (nw_graph nw) (pop_nth (nw_routes nw) i) (pop_nth (nw_ids nw) i) (nw_modes nw), None)
  | None => (nw, Some RouteIdNotFoundException)
  end.

(** network.py 283-285: iteration over the live list [self.__routes] by position *)
Fixpoint remove_mode_routes (fuel : nat) (m : mode) (i : nat) (nw : network) : network * option exn :=
  match fuel with
  | O => (nw, Some NonTermination)
  | S fuel' =>
      match nth_error (nw_routes nw) i with
      | None => (nw, None)
      | Some r =>
          if mode_eqb (r_mode r) m then
            match remove_route nw (r_id r) with
            | (nw', None) => remove_mode_routes fuel' m (S i) nw'
            | x => x
            end
          else remove_mode_routes fuel' m (S i) nw
      end
  end.
(** network.py 268-285 (remove_transport_mode) *)
Definition remove_transport_mode (nw : network) (m : mode) : network * option exn :=
  let nw1 := mkNetwork (nw_graph nw) (nw_routes nw) (nw_ids nw)
               (filter (fun x => negb (mode_eqb x m)) (nw_modes nw)) in
  remove_mode_routes (S (length (nw_routes nw))) m 0 nw1.

(** network.py 287-306 (add_route): [a or b] evaluates b only if a is false, and the first validator
    raises or returns True *)
Definition add_route (nw : network) (r : route) : network * option exn :=
  match (match edges_validator (nw_graph nw) (r_ni r) with
         | Ok true => Ok true
         | Ok false => edges_validator (nw_graph nw) (r_nr r)
         | Err e => Err e
         end) with
  | Err e => (nw, Some e)
  | Ok false => (nw, None)
  | Ok true =>
      if smem (r_id r) (nw_ids nw) then (nw, Some RouteIdDuplicatedException)
      else match add_transport_mode nw (r_mode r) with
           | (nw', None) =>
               (mkNetwork (nw_graph nw') (nw_routes nw' ++ [r]) (nw_ids nw' ++ [r_id r]) (nw_modes nw'), None)
           | x => x
           end
  end.

(** network.py 321-351 (routes_to_file): the rows handed to the CSV writer *)
Definition routes_table (nw : network) : list (string * string * string * string * string * string) :=
  map (fun r => (r_id r, m_name (r_mode r), sequences_to_string (r_ni r), sequences_to_string (r_nr r),
                 sequences_to_string (r_si r), sequences_to_string (r_sr r))) (nw_routes nw).

(** Histories of client calls *)
Inductive nop : Type :=
| NAddRoute (r : route)
| NRemoveRoute (rid : string)
| NAddMode (m : mode)
| NRemoveMode (m : mode).
Definition nstep (nw : network) (o : nop) : network * option exn :=
  match o with
  | NAddRoute r => add_route nw r
  | NRemoveRoute rid => remove_route nw rid
  | NAddMode m => add_transport_mode nw m
  | NRemoveMode m => remove_transport_mode nw m
  end.
Definition nrun (nw : network) (ops : list nop) : network := fold_left (fun nw o => fst (nstep nw o)) ops nw.
