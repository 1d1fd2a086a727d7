(** * Optimizer: model of /repo/sidermit/optimization/optimizer.py, lines 43-507

    Simplifications, valid for the whole file: exact arithmetic (Q) except for the objective value and the
    constraint violation reported by the solver, which may also be infinite or NaN; the dictionary of
    frequencies [f] given by a caller is a default dictionary (freq reads 0 for a missing key); the while loops
    called inside (hyperpaths, assignment, users' cost) share one fuel, [pb_fuel]; scipy's [minimize] is a
    parameter, [solver]; logging and printing are not modelled. *)
From Coq Require Import String List ZArith QArith Qabs Bool.
From Verif Require Import PyBase Graph Demand Mode Route Network ExtGraph Hyperpath Assignment Costs UsersCost.
Import ListNotations.
Local Open Scope Q_scope.

(** the arguments graph_obj, demand_obj, passenger_obj, network_obj of the constructor *)
Record problem : Type := mkProblem {
  pb_geo : geo; pb_city : city; pb_demand : demand; pb_pass : qpass; pb_net : network; pb_fuel : nat
}.
Definition pb_routes (B : problem) : list route := nw_routes (pb_net B).
Definition pb_graph (B : problem) : graph := c_graph (pb_city B).

(** 82-105 (f0): the dictionary, the list, and lines_position as the list of the ids at positions 0, 1, ... *)
Definition f0 (rs : list route) (f : option fdict) : fdict * list Q * list string :=
  (fold_left (fun d r => dset String.eqb d (r_id r)
     (match f with None => m_fini (r_mode r) | Some f => freq f (r_id r) end)) rs [],
   map (fun r => m_fini (r_mode r)) rs, map r_id rs).
(** 107-118 (fopt_to_f): lines_position is [defaultdict(None)], so that a missing position raises KeyError *)
Fixpoint fopt_from (pos : list string) (n : nat) (fopt : list Q) (f : fdict) : res fdict :=
  match fopt with
  | [] => Ok f
  | fr :: l => match nth_error pos n with
               | Some r => fopt_from pos (S n) l (dset String.eqb f r fr)
               | None => Err KeyError
               end
  end.
Definition fopt_to_f (pos : list string) (fopt : list Q) : res fdict := fopt_from pos 0 fopt [].

(** 49-80: the attributes of an Optimizer; better_res is kept apart *)
Record optimizer : Type := mkOpt {
  o_pb : problem; o_f : fdict; o_fopt : list Q; o_pos : list string;
  o_X : xgraph; o_es : list od_entry; o_asg : list (list (nat * Q)); o_len_c : nat; o_len_v : nat
}.

(** 120-130 (get_k) *)
Definition get_k (l : tab) : fdict := fold_left (fun k '(r, q) => dset String.eqb k r q) (most_loaded_section l) [].
(** 132-150 (operators_cost): the cost and the tables after the call *)
Definition operators_cost (B : problem) (z v : tab) (f k : fdict) : res (Q * tab * tab) :=
  let* ltt := lines_travel_time (pb_routes B) (get_edges_distance (pb_geo B) (pb_graph B)) in
  let '(ct, z', v') := get_cycle_time z v (pb_routes B) ltt in
  Ok (get_operators_cost (pb_routes B) ct f k, z', v').
(** 152-160 (infrastructure_cost) *)
Definition infrastructure_cost (B : problem) (f : fdict) : Q := get_infrastructure_cost (pb_geo B) (pb_graph B) (pb_net B) f.
(** 162-180 (user_cost): [o] holds the hyperpaths, the demand, the assignment and the extended graph *)
Definition user_cost (B : problem) (o : optimizer) (f : fdict) (z v : tab) : res Q :=
  get_users_cost (pb_fuel B) (o_X o) (pb_pass B) f (o_es o) (o_asg o) z v.
(** 210-211, 230-231, 502-505 *)
Definition boardings (o : optimizer) (f : fdict) : res tables :=
  get_alighting_and_boarding (pb_fuel (o_pb o)) (o_X o) f (o_es o) (o_asg o).
(** 201-219 (VRC) *)
Definition VRC (o : optimizer) (fopt : list Q) : res Q :=
  let* f := fopt_to_f (o_pos o) fopt in
  let* t := boardings o f in
  let k := get_k (t_l t) in
  let* oc := operators_cost (o_pb o) (t_z t) (t_v t) f k in
  let '(co, z, v) := oc in
  let ci := infrastructure_cost (o_pb o) f in
  let* cu := user_cost (o_pb o) o f z v in
  Ok (co + ci + cu).
(** 221-245 (get_constrains) *)
Definition get_constrains (o : optimizer) (fopt : list Q) : res (list Q) :=
  let* f := fopt_to_f (o_pos o) fopt in
  let* t := boardings o f in
  let ineq_k := most_loaded_constrains (pb_routes (o_pb o)) (most_loaded_section (t_l t)) in
  let* ineq_f := fmax_constrains (pb_graph (o_pb o)) (pb_routes (o_pb o)) (nw_modes (pb_net (o_pb o))) f in
  Ok (ineq_k ++ ineq_f).

(** 44-80 (__init__) *)
Definition new_optimizer (B : problem) (fg : option fdict) : res optimizer :=
  let P := pb_pass B in
  let '(f, fopt, pos) := f0 (pb_routes B) fg in
  let* X := build_ext (pb_geo B) (pb_graph B) (pb_routes B) (q_pt P) (Some f) in
  let* es := get_all_hyperpaths (pb_fuel B) X P (dm_matrix (pb_demand B)) in
  let* asg := get_assignment X (p_p (c_params (pb_city B))) (q_va P) (q_pa P) (q_pv P) es in
  let o := mkOpt B f fopt pos X es asg 0 0 in
  let* con := get_constrains o fopt in
  Ok (mkOpt B f fopt pos X es asg (length con) (length fopt)).

(** 374, 378, 393: the tuples (fopt, success, status, message, constr_violation, vrc); success is None for the
    word "initialization" *)
Record entry : Type := mkEntry {
  e_x : list Q; e_success : option bool; e_status : Z; e_message : string; e_viol : fval; e_fun : fval
}.
(** 247-271 (internal_optimization): [minimize] may answer anything or raise; the number is that of the call *)
Definition solver_t : Type := nat -> optimizer -> res entry.

(** 292-305 (f_distance): [new_f[i]] raises IndexError *)
Fixpoint f_distance_from (prev new : list Q) (dif : Q) : res Q :=
  match prev, new with
  | [], _ => Ok dif
  | _ :: _, [] => Err IndexError
  | a :: p, b :: n => f_distance_from p n (dif + Qabs (a - b))
  end.
Definition f_distance (prev new : list Q) : res Q := f_distance_from prev new 0.
(** 307-319 (external_optimization_tolerance) *)
Definition tolerance_reached (prev new : list Q) (tol : Q) : res bool :=
  let* d := f_distance prev new in Ok (Qltb (Qabs d) tol).

Definition fabs (a : fval) : fval := match a with Fin q => Fin (Qabs q) | PInf | NInf => PInf | NaN => NaN end.
(** 321-348 (status_optimization) *)
Definition status_optimization (r : option entry) : res bool :=
  match r with
  | None => Err NoOptimalSolutionFoundException
  | Some e =>
      raise_if (existsb (fun f => Qltb f (-1 # 10)) (e_x e)) NegativeFrequencyException (
      raise_if (flt (Fin (1 # 10)) (fabs (e_viol e))) ConstraintViolationException (
      raise_if ((e_status e =? 0)%Z || (e_status e =? 3)%Z) NoOptimalSolutionFoundException (
      Ok true)))
  end.
(** 413-433 (get_better_result): 417-424, the valid results *)
Definition valid_entry (e : entry) : bool :=
  negb (existsb (Z.eqb (e_status e)) [0; 3; -1]%Z) && flt (fabs (e_viol e)) (Fin (1 # 1000)) &&
  negb (existsb (fun f => Qltb f 0) (e_x e)).
(** 426-431 *)
Definition get_better_result (l : list entry) : option entry :=
  fst (fold_left (fun '(best, m) e => if flt (e_fun e) m then (Some e, e_fun e) else (best, m)) (filter valid_entry l) (None, PInf)).

(** 385-395: the while loop; [i] is the variable iteration, also the number of the next call of the solver; None:
    the loop has not ended within [fuel] turns *)
Fixpoint external_loop (fuel : nat) (B : problem) (solver : solver_t) (tol : Q) (N : option Z) (i : nat) (o : optimizer)
  (pre new : list Q) (log : list entry) : option (res (list entry)) :=
  match tolerance_reached pre new tol with
  | Err e => Some (Err e)
  | Ok true => Some (Ok log)
  | Ok false =>
      if match N with Some n => (n <? Z.of_nat i)%Z | None => false end then Some (Ok log)
      else match fuel with
      | O => None
      | S fuel' =>
          match (let* f := fopt_to_f (o_pos o) new in
                 let* o' := new_optimizer B (Some f) in
                 let* r := solver i o' in Ok (o', r)) with
          | Err e => Some (Err e)
          | Ok (o', r) => external_loop fuel' B solver tol N (S i) o' new (e_x r) (log ++ [r])
          end
      end
  end.
(** 370-395: everything up to the selection *)
Definition external_runs (fuel : nat) (B : problem) (solver : solver_t) (f : option fdict) (tol : Q) (N : option Z) : option (res (list entry)) :=
  match (let* o := new_optimizer B f in let* r := solver O o in Ok (o, r)) with
  | Err e => Some (Err e)
  | Ok (o, r) =>
      external_loop fuel B solver tol N 1 o (o_fopt o) (e_x r)
        [mkEntry (o_fopt o) None (-1) "initialization" (Fin (-1)) (Fin (-1)); r]
  end.
(** 401-408 *)
Definition drop_small (e : entry) : entry :=
  mkEntry (map (fun x => if Qltb x (1 # 24) then 0 else x) (e_x e)) (e_success e) (e_status e) (e_message e) (e_viol e) (e_fun e).
(** 397-411 *)
Definition select_result (log : list entry) : res entry :=
  let better := option_map drop_small (get_better_result log) in
  let* _ := status_optimization better in
  match better with Some e => Ok e | None => Err NotModelled end.
(** 350-411 (external_optimization) *)
Definition external_optimization (fuel : nat) (B : problem) (solver : solver_t) (f : option fdict) (tol : Q) (N : option Z) : option (res entry) :=
  option_map (fun r => let* log := r in select_result log) (external_runs fuel B solver f tol N).
(** 435-461 (network_optimization): the Optimizer and its better_res; printing the result (459) calls fopt_to_f *)
Definition network_optimization (fuel : nat) (B : problem) (solver : solver_t) (f : option fdict) (tol : Q) (N : option Z) : option (res (optimizer * entry)) :=
  match new_optimizer B f with
  | Err e => Some (Err e)
  | Ok o => option_map (fun r => let* e := r in let* _ := fopt_to_f (o_pos o) (e_x e) in Ok (o, e)) (external_optimization fuel B solver f tol N)
  end.
(** 492-507 (last_iteration) *)
Definition last_iteration (o : optimizer) (res : entry) : PyBase.res (optimizer * fdict * tables * fdict) :=
  let* f := fopt_to_f (o_pos o) (e_x res) in
  let* o' := new_optimizer (o_pb o) (Some f) in
  let* t := boardings o' f in
  Ok (o', f, t, get_k (t_l t)).
