(** * FloatTol: model of /repo/sidermit/optimization/optimizer.py 292-319 with the numbers of the machine

    f_distance and external_optimization_tolerance of Optimizer.v with IEEE doubles (as in FloatDemand.v). *)
From Coq Require Import ZArith List Bool.
From Flocq Require Import IEEE754.BinarySingleNaN.
From Verif Require Import PyBase FloatDemand.
Import ListNotations.

(** 292-305: [dif += abs(prev_f[i] - new_f[i])]; [new_f[i]] raises IndexError.  dif starts as the int 0; 0 + x is x. *)
Fixpoint fdistance_from (prev new : list double) (dif : double) : res double :=
  match prev, new with
  | [], _ => Ok dif
  | _ :: _, [] => Err IndexError
  | a :: p, b :: n => fdistance_from p n (fadd dif (Babs (fsub a b)))
  end.
Definition fdistance (prev new : list double) : res double := fdistance_from prev new fzero.
(** 307-319: [tol > abs(f_distance(prev_f, new_f))] *)
Definition ftolerance (prev new : list double) (tol : double) : res bool :=
  let* d := fdistance prev new in Ok (Bltb (Babs d) tol).
