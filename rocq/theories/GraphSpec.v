(** * GraphSpec: what a user expects of a parametric city, in terms of ids and positions only.

    Nothing here refers to the functions that build the city. *)
From Coq Require Import String List ZArith QArith Bool.
From Verif Require Import PyBase PyStr Graph.
Import ListNotations.
Local Open Scope Q_scope.

(** Documented domain of the construction parameters (docstring graph.py 259-274). *)
Definition in_range (lo hi x : Q) : Prop := lo <= x /\ x <= hi.
Definition valid_opt_list (n : Z) (ok : Q -> Prop) (o : option (list Q)) : Prop :=
  match o with
  | None => True
  | Some l => Z.of_nat (length l) = n /\ (forall x, In x l -> ok x)
  end.
Definition valid_params (P : params) : Prop :=
  (0 <= p_n P)%Z /\ 0 <= p_l P /\ 0 <= p_g P /\ 0 <= p_p P /\
  match p_etha P, p_etha_zone P with
  | None, None => True
  | Some e, Some z => in_range 0 1 e /\ (1 <= z <= p_n P)%Z
  | _, _ => False
  end /\
  valid_opt_list (p_n P) (in_range 0 360) (p_angles P) /\
  valid_opt_list (p_n P) (fun x => 0 <= x) (p_Gi P) /\
  valid_opt_list (p_n P) (fun x => 0 <= x) (p_Hi P).

(** the documented conditions in their order, each with the exception announced for it *)
Definition param_conditions (P : params) : list (Prop * exn) :=
  let len := fun o : option (list Q) => forall a, o = Some a -> Z.of_nat (length a) = p_n P in
  let all := fun (ok : Q -> Prop) (o : option (list Q)) => forall a x, o = Some a -> In x a -> ok x in
  [ ((0 <= p_n P)%Z, NIsNotValidNumberException);
    (0 <= p_l P, LIsNotValidNumberException);
    (0 <= p_g P, GIsNotValidNumberException);
    (0 <= p_p P, PIsNotValidNumberException);
    (p_etha P = None -> p_etha_zone P = None, EthaValueRequiredException);
    (p_etha_zone P = None -> p_etha P = None, EthaZoneValueRequiredException);
    (forall e, p_etha P = Some e -> in_range 0 1 e, EthaValueIsNotValidException);
    (forall z, p_etha_zone P = Some z -> (1 <= z <= p_n P)%Z, EthaZoneValueIsNotValidException);
    (len (p_angles P), AngleListLengthIsNotValidException);
    (all (in_range 0 360) (p_angles P), AngleValueIsNotValidException);
    (len (p_Gi P), GiListLengthIsNotValidException);
    (all (fun x => 0 <= x) (p_Gi P), GiValueIsNotValidException);
    (len (p_Hi P), HiListLengthIsNotValidException);
    (all (fun x => 0 <= x) (p_Hi P), HiValueIsNotValidException) ].
(** [e] is the exception of the first condition that does not hold *)
Inductive first_violated : list (Prop * exn) -> exn -> Prop :=
| fv_here (c : Prop) (e : exn) l : ~ c -> first_violated ((c, e) :: l) e
| fv_later (c : Prop) (e : exn) l e' : c -> first_violated l e' -> first_violated ((c, e) :: l) e'.

(** Node with the given attributes, at polar position (radius, angle). *)
Definition node_is (G : geo) (k : kind) (id zone : Z) (name : string) (width radius angle : Q)
  (nd : node) : Prop :=
  nd_kind nd = k /\ nd_id nd = id /\ nd_zone nd = zone /\ nd_name nd = name /\
  nd_width nd == width /\ nd_radius nd == radius /\ nd_angle nd == angle /\
  nd_x nd == nd_radius nd * geo_cos G (nd_angle nd) /\
  nd_y nd == nd_radius nd * geo_sin G (nd_angle nd).

(** Documented ratio of zone z (1-based) in an optional list. *)
Definition ratio (o : option (list Q)) (z : Z) : Q :=
  match o with None => 1 | Some l => nth (Z.to_nat (z - 1)) l 1 end.
Definition zone_angle (P : params) (z : Z) : Q :=
  match p_angles P with
  | None => 360 / inject_Z (p_n P) * inject_Z (z - 1)
  | Some l => nth (Z.to_nat (z - 1)) l 0
  end.
Definition sc_radius (P : params) (z : Z) : Q := p_l P * ratio (p_Gi P) z.
Definition periphery_radius (P : params) (z : Z) : Q :=
  (p_l P + p_g P * p_l P) * ratio (p_Hi P) z.
Definition cbd_radius (P : params) : Q :=
  match p_etha P, p_etha_zone P with
  | Some e, Some z => e * sc_radius P z
  | _, _ => 0
  end.
Definition cbd_angle (P : params) : Q :=
  match p_etha P, p_etha_zone P with
  | Some _, Some z => zone_angle P z
  | _, _ => 0
  end.

(** Ids: CBD 0, periphery of zone z 2z-1, subcenter of zone z 2z. *)
Definition pid (z : Z) : Z := (2 * z - 1)%Z.
Definition scid (z : Z) : Z := (2 * z)%Z.

(** The arcs of the ring-radial city with n zones. *)
Inductive city_arc (n : Z) : Z -> Z -> Prop :=
| arc_p_sc z : (1 <= z <= n)%Z -> city_arc n (pid z) (scid z)
| arc_sc_cbd z : (1 <= z <= n)%Z -> city_arc n (scid z) 0
| arc_ring z : (1 <= z <= n)%Z -> (2 <= n)%Z -> city_arc n (scid z) (scid (z mod n + 1))
| arc_sym i j : city_arc n i j -> city_arc n j i.

(** Walks along a relation on ids. *)
Inductive walk (R : Z -> Z -> Prop) : Z -> Z -> Prop :=
| walk_refl i : walk R i i
| walk_step i j k : R i j -> walk R j k -> walk R i k.
