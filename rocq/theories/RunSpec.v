(** * RunSpec: what an optimisation from beginning to end needs from the solver *)
From Coq Require Import String List ZArith QArith.
From Verif Require Import PyBase Mode Route Network Costs UsersCost Optimizer PipeSpec.
Import ListNotations.
Local Open Scope Q_scope.

(** frequencies, one per line and none negative, at which the lines that run still allow every trip *)
Definition keeps_serving (B : problem) (x : list Q) : Prop :=
  length x = length (pb_routes B) /\ (forall q, In q x -> 0 <= q) /\ serves B (Some (combine (map r_id (pb_routes B)) x)).

(** The number of turns that the model gives to the loops of the program is no part of the program: the solver does
    not depend on it. *)
Definition refuel (o : optimizer) (n : nat) : optimizer :=
  mkOpt (with_fuel (o_pb o) n) (o_f o) (o_fopt o) (o_pos o) (o_X o) (o_es o) (o_asg o) (o_len_c o) (o_len_v o).
Definition turns_unseen (solver : solver_t) : Prop := forall i o n, solver i (refuel o n) = solver i o.
(** the solver does not raise, and its answers keep every trip possible *)
Definition sound_solver (B : problem) (solver : solver_t) : Prop :=
  turns_unseen solver /\ forall i o, exists e, solver i o = Ok e /\ keeps_serving B (e_x e).
