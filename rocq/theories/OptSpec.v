(** * OptSpec: what the optimisation promises about the answers of the solver *)
From Coq Require Import String List ZArith QArith Qabs Bool.
From Verif Require Import PyBase Mode Route Network Assignment Optimizer.
Import ListNotations.
Local Open Scope Q_scope.

(** an answer that can be accepted: the solver stopped for a good reason, the constraints are violated by less
    than 0.001 and no frequency is negative *)
Definition acceptable (e : entry) : Prop :=
  e_status e <> 0%Z /\ e_status e <> 3%Z /\ e_status e <> (-1)%Z /\
  (exists q, e_viol e = Fin q /\ - (1 # 1000) < q < 1 # 1000) /\ (forall x, In x (e_x e) -> 0 <= x).
(** its objective is a number below plus infinity *)
Definition has_value (e : entry) : Prop := (exists q, e_fun e = Fin q) \/ e_fun e = NInf.

(** the distance between two lists of frequencies *)
Definition distance (a b : list Q) : Q := Qsumf (fun p => Qabs (fst p - snd p)) (combine a b).

(** the i-th answer is what the solver found, at its i-th call, for the optimizer built from the frequencies of
    the answer before, or from those of the caller *)
Definition run_of (B : problem) (solver : solver_t) (f : option fdict) (runs : list entry) (i : nat) (r : entry) : Prop :=
  exists fi o, new_optimizer B fi = Ok o /\ solver i o = Ok r /\
    match i with
    | O => fi = f
    | S j => exists p g, nth_error runs j = Some p /\ fopt_to_f (map r_id (pb_routes B)) (e_x p) = Ok g /\ fi = Some g
    end.
(** the solver answers with one frequency per line *)
Definition right_length (solver : solver_t) : Prop :=
  forall k o r, solver k o = Ok r -> length (e_x r) = o_len_v o.
