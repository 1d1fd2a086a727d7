(** * Route: model of class Route of /repo/sidermit/publictransportsystem/network.py (lines 15-190)

    Simplifications: route ids are strings (or None); the attributes of a mode are finite numbers;
    node ids are ints.  A TransportMode object is a record with an identity [m_ref] (class
    TransportMode defines no __eq__, so == between modes is identity). *)
From Coq Require Import String Ascii List ZArith QArith Bool.
From Verif Require Import PyBase PyStr Mode.
Import ListNotations.
Local Open Scope Q_scope.

(** mode.py 29-53: a TransportMode object whose numeric attributes are finite (see Mode.v for
    the general attributes and their setters) *)
Record mode : Type := mkMode {
  m_ref : Z; m_name : string;
  m_bya : Q; m_co : Q; m_c1 : Q; m_c2 : Q; m_v : Q; m_t : Q; m_fmax : Q; m_kmax : Q;
  m_theta : Q; m_tat : Q; m_d : Q; m_fini : Q
}.
Definition mode_eqb (a b : mode) : bool := (m_ref a =? m_ref b)%Z.
(** the finite mode as an object of Mode.v *)
Definition tmode_of (m : mode) : tmode :=
  mkTMode (m_name m) (Fin (m_bya m)) (Fin (m_co m)) (Fin (m_c1 m)) (Fin (m_c2 m)) (Fin (m_v m)) (Fin (m_t m))
    (Fin (m_fmax m)) (Fin (m_kmax m)) (Fin (m_theta m)) (Fin (m_tat m)) (Fin (m_d m)) (Fin (m_fini m)).

(** network.py 15-22 *)
Inductive rtype : Type := CUSTOM | PREDEFINED | CIRCULAR.
Definition is_custom (t : rtype) : bool := match t with CUSTOM => true | _ => false end.
Definition is_circular (t : rtype) : bool := match t with CIRCULAR => true | _ => false end.

(** network.py 39-45: attributes of a Route *)
Record route : Type := mkRoute {
  r_id : string;
  r_mode : mode;
  r_ni : list Z; r_nr : list Z;
  r_si : list Z; r_sr : list Z;
  r_type : rtype
}.

(** network.py 102-114 (sequences_to_string): [line == ""] decides whether a comma is added *)
Definition sequences_to_string (l : list Z) : string :=
  fold_left (fun line z =>
    match line with
    | EmptyString => String.append line (str_of_Z z)
    | _ => String.append line (String.append "," (str_of_Z z))
    end) l EmptyString.

(** network.py 116-132 (sequences_to_list); int() strips blanks, so rstrip("\n") before it changes
    nothing and is dropped *)
Definition sequences_to_list (s : option string) : res (list Z) :=
  match s with
  | None | Some EmptyString => Ok []
  | Some t => mapM (fun w => match int_of_str w with Some z => Ok z | None => Err ValueError end) (split_on "," t)
  end.

(** network.py 134-156 (stops_validator) *)
Definition stops_validator (nodes stops : list Z) : res bool :=
  match stops with
  | [] => Err StopSequenceIsNotValidException
  | s0 :: _ =>
      raise_if (negb (forallb (fun s => zmem s nodes) stops)) StopsSequencesException (
      let* n0 := py_nth nodes 0 in
      raise_if (negb (n0 =? s0)%Z) FirstStopIsNotValidException (
      let* nl := py_nth nodes (length nodes - 1) in
      let* sl := py_nth stops (length stops - 1) in
      raise_if (negb (nl =? sl)%Z) LastStopIsNotValidException (Ok true)))
  end.

(** network.py 158-172 (direction_validator) *)
Definition direction_validator (ni nr : list Z) : res bool :=
  match ni, nr with
  | [], _ | _, [] => Err NodeSequencesIsNotValidException
  | i0 :: _, r0 :: _ =>
      let* rl := py_nth nr (length nr - 1) in
      let* il := py_nth ni (length ni - 1) in
      raise_if (negb (i0 =? rl)%Z || negb (r0 =? il)%Z) NotCycleException (Ok true)
  end.

(** network.py 174-190 (sequences_validator) *)
Definition occurrences (x : Z) (l : list Z) : nat := length (filter (fun y => (x =? y)%Z) l).
Definition sequences_validator (l : list Z) : res bool :=
  raise_if (existsb (fun x => Nat.ltb 1 (occurrences x l)) l) NodeSequencesIsNotValidException (Ok true).

(** network.py 77-99 (parameters_validator) *)
Definition route_validator (ni nr si sr : option string) : res bool :=
  let* nodes_i := sequences_to_list ni in
  let* nodes_r := sequences_to_list nr in
  let* stops_i := sequences_to_list si in
  let* stops_r := sequences_to_list sr in
  let* _ := direction_validator nodes_i nodes_r in
  let* _ := stops_validator nodes_i stops_i in
  let* _ := stops_validator nodes_r stops_r in
  let* _ := sequences_validator nodes_i in
  sequences_validator nodes_r.

Definition blank_arg (s : option string) : bool :=
  match s with None | Some EmptyString => true | _ => false end.

(** network.py 27-75 (__init__).  [m = None] stands for a mode argument that is not a
    TransportMode; simplification: it is rejected also for the types PREDEFINED and CIRCULAR, where
    the code stores it unchecked (all callers in the library check it first). *)
Definition new_route (rid : option string) (m : option mode) (ni nr si sr : option string) (ty : rtype)
  : res route :=
  raise_if (is_custom ty && (blank_arg ni || blank_arg nr)) NodeSequencesIsNotValidException (
  raise_if (is_custom ty && (blank_arg si || blank_arg sr)) StopSequenceIsNotValidException (
  match rid with
  | None => Err RouteIdIsNotValidException
  | Some id =>
      match m with
      | None => Err ModeIsNotValidException
      | Some md =>
          let* _ := if is_custom ty then route_validator ni nr si sr else Ok true in
          let* nodes_i := sequences_to_list ni in
          let* nodes_r := sequences_to_list nr in
          let* stops_i := sequences_to_list si in
          let* stops_r := sequences_to_list sr in
          Ok (mkRoute id md nodes_i nodes_r stops_i stops_r ty)
      end
  end)).
