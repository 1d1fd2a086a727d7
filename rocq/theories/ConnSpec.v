(** * ConnSpec: travelling by the lines of a network, in terms of its routes only

    A traveller boards a line at one of its stops, rides to a later stop of the same direction, and goes on from
    there with any line that stops at that node. *)
From Coq Require Import String List ZArith QArith Relations.
From Verif Require Import PyBase Graph Mode Route Network ExtGraph ExtSpec.
Import ListNotations.
Local Open Scope Q_scope.

(** A ride with a line that runs from node [a] to node [b].  A two-way line does not take passengers at the end of
    a direction nor leave any at its start; a circular line takes and leaves them everywhere, and goes round. *)
Definition ride (rs : list route) (fr : option (list (string * Q))) (a b : Z) : Prop :=
  exists r d i j, In r rs /\ 0 < route_frequency rs fr (r_id r) /\
    nth_error (visits r d) i = Some a /\ nth_error (visits r d) j = Some b /\
    (r_type r = CIRCULAR \/ (i < j)%nat /\ ~ last_is (nodes_of r d) a /\ ~ first_is (nodes_of r d) b).
(** zero or more rides *)
Definition travel (rs : list route) (fr : option (list (string * Q))) : Z -> Z -> Prop := clos_refl_trans_1n Z (ride rs fr).
(** the modes of the lines that stop somewhere *)
Definition mode_in_use (rs : list route) (m : mode) : Prop := exists r d, In r rs /\ r_mode r = m /\ visits r d <> [].
(** two of them have the same name *)
Definition same_names (rs : list route) : Prop := exists m m', mode_in_use rs m /\ mode_in_use rs m' /\ m <> m' /\ m_name m = m_name m'.
