(** * ModeSpec: specification vocabulary for modes, passengers and the manager *)
From Coq Require Import String List ZArith QArith Bool.
From Verif Require Import PyBase Mode.
Import ListNotations.
Local Open Scope Q_scope.

(** the documented domain of each attribute (docstrings and messages of mode.py), numbers only *)
Definition nonneg_f (x : fval) : Prop := x = PInf \/ exists q, x = Fin q /\ 0 <= q.
Definition pos_f (x : fval) : Prop := x = PInf \/ exists q, x = Fin q /\ 0 < q.
Definition mode_domain (a : mattr) (x : fval) : Prop :=
  match a with
  | A_v => pos_f x
  | A_theta => exists q, x = Fin q /\ 0 <= q <= 1
  | A_bya => exists q, x = Fin q /\ (q == 0 \/ q == 1)
  | _ => nonneg_f x
  end.
Definition pass_domain (a : pattr) (x : fval) : Prop :=
  match a with P_va => pos_f x | _ => nonneg_f x end.

(** The manager as a dictionary name -> object (reference), in insertion order. *)
Definition entries (w : world) : list (string * nat) := combine (mg_names (w_mgr w)) (mg_modes (w_mgr w)).
Fixpoint remove_key (name : string) (l : list (string * nat)) : list (string * nat) :=
  match l with
  | [] => []
  | (k, r) :: l' => if (k =? name)%string then l' else (k, r) :: remove_key name l'
  end.
(** what each call does to the dictionary; [name_of] is the current name of the object *)
Definition spec_add (w : world) (ref : nat) (l : list (string * nat)) : list (string * nat) :=
  match nth_error (w_heap w) ref with
  | Some m => if smem (tm_name m) (map fst l) then l else l ++ [(tm_name m, ref)]
  | None => l
  end.

(** histories without renaming *)
Definition no_rename (ops : list mgr_op) : Prop :=
  forall op, In op ops -> match op with MSet _ (OpName _) => False | _ => True end.
