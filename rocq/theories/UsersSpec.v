(** * UsersSpec: what the travellers consume, edge by edge of their strategy *)
From Coq Require Import String List ZArith QArith Bool.
From Verif Require Import PyBase Graph Mode Route ExtGraph ExtSpec Hyperpath HyperSpec Assignment FlowSpec CostSpec.
Import ListNotations.
Local Open Scope Q_scope.

Definition line_of (X : xgraph) (k : nat) : route := rn_route (rnode_at (xg_rnodes X) k).
(** hours that a traveller who boards by this edge has waited: theta times the headway of the lines they are
    willing to board, which run on d parallel streets *)
Definition wait_time (X : xgraph) (f : fdict) (e : od_entry) (x : xedge) : Q :=
  match x_i x, x_j x with
  | ES s, ER k => m_theta (sn_mode (stop_at (xg_stops X) s)) * m_d (r_mode (line_of X k)) / lines_freq X f (hr_suc (od_res e) (ES s))
  | _, _ => 0
  end.
(** a transfer: alighting before the destination *)
Definition transfer (X : xgraph) (e : od_entry) (x : xedge) : Q :=
  match x_i x, x_j x with
  | ER _, ES s => if stop_of_dest X (od_d e) (ES s) then 0 else 1
  | _, _ => 0
  end.
(** the strategy goes on riding after the node *)
Definition rides_on (e : od_entry) (n : enode) : bool :=
  existsb (fun y => match x_j y with ER _ => true | _ => false end) (hr_suc (od_res e) n).
(** hours on board: running time, plus the whole stop when riding on, plus half of the alightings when
    alighting.  z and v are passengers per vehicle by line, direction and stop. *)
Definition on_board (X : xgraph) (z v : tab) (e : od_entry) (x : xedge) : Q :=
  match x_i x, x_j x with
  | ER a, ER b => x_t x + (if rides_on e (ER b)
      then m_t (r_mode (line_of X a)) / 3600 * stop_dwell (m_bya (r_mode (line_of X a))) z v (rid X a) (rdir X a) (rn_stop_at (xg_rnodes X) b) else 0)
  | ER k, ES s => m_t (r_mode (line_of X k)) / 3600 * ((1 # 2) * tget v (rid X k) (rdir X k) s)
  | _, _ => 0
  end.
(** hours of access of one traveller who starts at stop s: walking to the platform, and walking to the street *)
Definition access_time (X : xgraph) (vp width : Q) (a : list (nat * Q)) (s : nat) : Q :=
  let m := sn_mode (stop_at (xg_stops X) s) in
  m_tat m / 60 + dget0 Nat.eqb 0 a s / 100 * width / (4 * vp * m_d m).
Definition width_at (X : xgraph) (o : option enode) : Q :=
  match o with Some (EC c) => nd_width (gnode (xg_graph X) c) | _ => 0 end.

(** travellers times what each consumes, over all the OD pairs *)
Definition consumption (X : xgraph) (W : od_entry -> xedge -> Q) (eas : list (od_entry * list (nat * Q))) (Fs : list (xedge -> Q)) : Q :=
  Qsumf (fun '(ea, F) => Qsumf (fun x => F x * W (fst ea) x) (xg_edges X)) (combine eas Fs).
Definition starting (X : xgraph) (vp : Q) (eas : list (od_entry * list (nat * Q))) : Q :=
  Qsumf (fun '(e, a) => Qsumf (fun s => start_trips e a s * access_time X vp (width_at X (od_o e)) a s) (map fst (od_paths e))) eas.

(** the line goes and comes back by the same stops, each once *)
Definition both_ways (r : route) : Prop :=
  r_type r <> CIRCULAR /\ NoDup (r_si r) /\ (r_sr r = rev (r_si r) \/ r_sr r = []).
(** no traveller walks between two stops of a node *)
Definition never_walks (X : xgraph) (e : od_entry) : Prop :=
  forall s x c, In x (hr_suc (od_res e) (ES s)) -> x_j x = EC c -> stop_of_dest X (od_d e) (ES s) = true.
