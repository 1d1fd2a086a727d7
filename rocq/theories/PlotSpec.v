(** * PlotSpec: what the pictures should show *)
From Coq Require Import String Ascii List ZArith QArith Bool.
From Verif Require Import PyBase PyStr Graph Mode Route Network ExtGraph Hyperpath TextSpec HyperTextSpec Plot.
Import ListNotations.
Local Open Scope Q_scope.

(** a list holds exactly the things of that kind, each once *)
Definition exactly {A} (l : list A) (p : A -> Prop) : Prop := NoDup l /\ forall x, In x l <-> p x.
(** nodes of a kind *)
Definition node_of (g : graph) (k : kind) (i : Z) : Prop := exists nd, In nd (g_nodes g) /\ nd_kind nd = k /\ nd_id nd = i.
(** the only position given for the node is that of its coordinates *)
Definition placed (pic : picture) (nd : node) : Prop := dget Z.eqb (pic_pos pic) (nd_id nd) = Some [nd_x nd; nd_y nd].
(** two consecutive elements *)
Definition next_in {A} (l : list A) (a b : A) : Prop := exists l1 l2, l = l1 ++ a :: b :: l2.
(** both directions are drawn unless one was asked for *)
Definition asked (direction : option string) (d : string) : Prop := direction = None \/ direction = Some d.
(** all routes are drawn unless some were asked for *)
Definition listed (nw : network) (list_routes : option (list string)) (r : route) : Prop :=
  In r (nw_routes nw) /\ match list_routes with None => True | Some l => In (r_id r) l end.
(** one more layer of the picture, or none *)
Definition layer {A B} (shown : Prop) (mk : list B -> drawing A) (p : B -> Prop) (ds : list (drawing A)) : Prop :=
  (shown /\ exists l, ds = [mk l] /\ forall x, In x l <-> p x) \/ (~ shown /\ ds = []).

(** the name of a node of the extended graph in the picture *)
Definition drawn_name (X : xgraph) (n : enode) (t : string) : Prop :=
  match n with
  | EC c => city_named X c t
  | ES s => exists m a, stop_names X s m a /\ t = m ++ " - " ++ a
  | ER k => exists i d a, place_names X k i d a /\ t = i ++ " " ++ d ++ " - " ++ a
  end%string.
(** the three kinds of nodes of the extended graph *)
Definition is_city (n : enode) : Prop := match n with EC _ => True | _ => False end.
Definition is_stop (n : enode) : Prop := match n with ES _ => True | _ => False end.
Definition is_place (n : enode) : Prop := match n with ER _ => True | _ => False end.
