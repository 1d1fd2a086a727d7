(** * TableSpec: which lines of an optimised network the table of the lines can describe *)
From Coq Require Import String List ZArith QArith.
From Verif Require Import PyBase Mode Route Network RouteSpec ExtGraph ExtSpec Assignment ResultsSpec.
Import ListNotations.
Local Open Scope Q_scope.

(** a vehicle of the line carries somebody somewhere *)
Definition carries (t : tables) (r : route) : Prop := exists d s, 0 < tget (t_l t) (r_id r) d s.
(** a circular line goes in one direction, stops at nodes of its way only, and its vehicles carry somebody when they
    leave any node *)
Definition never_empty (X : xgraph) (t : tables) (r : route) : Prop :=
  exists d, (d = DI /\ r_nr r = [] /\ r_sr r = [] \/ d = DR /\ r_ni r = [] /\ r_si r = []) /\ incl (visits r d) (nodes_of r d) /\
    forall n, In n (nodes_of r d) -> 0 < at_node X (t_l t) (r_id r) d n.
