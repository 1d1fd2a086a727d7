(** * CostSpec: what the costs and the constraints should be *)
From Coq Require Import String List ZArith QArith Bool.
From Verif Require Import PyBase Graph Mode Route Network RouteSpec ExtGraph ExtSpec Hyperpath Assignment.
Import ListNotations.
Local Open Scope Q_scope.

(** length of a sequence of nodes, from the coordinates; the empty sequence has length 0 *)
Definition seq_length (G : geo) (g : graph) (l : list Z) (q : Q) : Prop :=
  (l = [] /\ q == 0) \/ path_length G g l q.

(** dictionaries have one entry per key *)
Definition rows_wf (rows : list (dir * list (nat * Q))) : Prop := NoDup (map fst rows) /\ forall d row, In (d, row) rows -> NoDup (map fst row).
Definition tab_wf (t : tab) : Prop := NoDup (map fst t) /\ forall r rows, In (r, rows) t -> rows_wf rows.

(** time of one stop, in units of one passenger's: one after the other, or at the same time *)
Definition stop_dwell (bya : Q) (z v : tab) (r : string) (d : dir) (s : nat) : Q :=
  if Qeqb bya 0 then tget z r d s + tget v r d s
  else if Qeqb bya 1 then Qmaxb (tget z r d s) (tget v r d s) else 0.
(** S lists, without repetition, at least the stops that have an entry *)
Definition covers (S : list nat) (z v : tab) (r : string) : Prop :=
  NoDup S /\ forall d s, In s (map fst (trow z r d)) \/ In s (map fst (trow v r d)) -> In s S.

(** a vehicle of the route goes over the arc from a to b *)
Definition goes_over (r : route) (a b : Z) : Prop :=
  consecutive (r_ni r) a b \/ consecutive (r_nr r) a b.
(** the arc is in the city, and used by a line of the mode that runs *)
Definition used_arc (g : graph) (rs : list route) (f : fdict) (m : mode) (a b : Z) : Prop :=
  edge_exist g a b = true /\ exists r, In r rs /\ m_ref (r_mode r) = m_ref m /\ ~ freq f (r_id r) == 0 /\ goes_over r a b.
(** U lists every used street once, in one of its two directions *)
Definition streets (g : graph) (rs : list route) (f : fdict) (m : mode) (U : list (Z * Z)) : Prop :=
  NoDup U /\ (forall a b, In (a, b) U -> used_arc g rs f m a b \/ used_arc g rs f m b a) /\
  (forall a b, used_arc g rs f m a b -> In (a, b) U \/ In (b, a) U) /\
  (forall a b, In (a, b) U -> In (b, a) U -> a = b).
(** straight distance between two nodes of the city *)
Definition is_distance (G : geo) (g : graph) (dist : Z -> Z -> Q) : Prop :=
  forall na nb, In na (g_nodes g) -> In nb (g_nodes g) -> dist (nd_id na) (nd_id nb) == euclid G na nb.

(** number of times that the sequence goes from a to b *)
Fixpoint passes (a b : Z) (l : list Z) : nat :=
  match l with
  | x :: (y :: _) as t => ((if (x =? a)%Z && (y =? b)%Z then 1 else 0) + passes a b t)%nat
  | _ => O
  end.
(** vehicles of a mode per hour from a to b *)
Definition vehicles (rs : list route) (f : fdict) (m : mode) (a b : Z) : Q :=
  Qsumf (fun r => if (m_ref (r_mode r) =? m_ref m)%Z then freq f (r_id r) * Qofnat (passes a b (r_ni r) + passes a b (r_nr r)) else 0) rs.
