(** * RouteSpec: what users expect of lines and networks *)
From Coq Require Import String Ascii List ZArith QArith Bool.
From Verif Require Import PyBase PyStr Graph GraphSpec Route Network.
Import ListNotations.
Local Open Scope Z_scope.

(** [s] is a non-empty text "t1,t2,..." of comma-free tokens that Python's int() reads as the ints
    of [l]. *)
Definition parses (s : option string) (l : list Z) : Prop :=
  exists t toks, s = Some t /\ t <> EmptyString /\ toks <> [] /\ t = String.concat "," toks /\
    (forall w i a, In w toks -> String.get i w = Some a -> a <> ","%char) /\
    Forall2 (fun w z => int_of_str w = Some z) toks l.

Definition starts (l : list Z) (x : Z) : Prop := exists t, l = x :: t.
Definition ends (l : list Z) (x : Z) : Prop := exists t, l = t ++ [x].

(** A two-way line: directions a -> b and b -> a without repeated nodes; the stops of a direction
    are nodes of it and its first and last stops are its end nodes. *)
Definition valid_line (ni nr si sr : list Z) : Prop :=
  (exists a b, starts ni a /\ ends ni b /\ starts nr b /\ ends nr a /\
               starts si a /\ ends si b /\ starts sr b /\ ends sr a) /\
  NoDup ni /\ NoDup nr /\ incl si ni /\ incl sr nr.

(** [s] visits its elements in the order of [l] *)
Inductive subseq {A : Type} : list A -> list A -> Prop :=
| subseq_nil l : subseq [] l
| subseq_take x s l : subseq s l -> subseq (x :: s) (x :: l)
| subseq_skip x s l : subseq s l -> subseq s (x :: l).

(** consecutive elements *)
Definition consecutive (l : list Z) (a b : Z) : Prop := exists l1 l2, l = l1 ++ a :: b :: l2.
(** the sequence travels along arcs of the graph *)
Definition on_arcs (g : graph) (l : list Z) : Prop :=
  forall a b, consecutive l a b -> edge_exist g a b = true.

(** A set of modes that can be operated together: at most two, of different names, and if there are
    two one of them has d = 1. *)
Definition modes_ok (l : list mode) : Prop :=
  NoDup (map m_ref l) /\ NoDup (map m_name l) /\
  (length l <= 2)%nat /\ (length l = 2%nat -> exists m, In m l /\ (m_d m == 1)%Q).
Definition registered (m : mode) (l : list mode) : Prop := exists m', In m' l /\ m_ref m' = m_ref m.

(** the routes that survive the removal loop of remove_transport_mode: the route that follows a
    removed one is never looked at *)
Fixpoint skip_filter (m : mode) (l : list route) : list route :=
  match l with
  | [] => []
  | r :: t => if mode_eqb (r_mode r) m then match t with [] => [] | r2 :: t2 => r2 :: skip_filter m t2 end
              else r :: skip_filter m t
  end.
