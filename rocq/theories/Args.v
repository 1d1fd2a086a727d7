(** * Args: the checks of arguments, on arbitrary Python values

    The other files take arguments of the declared types.  Here an argument is None, a bool, an int, a float (exact, an
    infinity or NaN), or a str, and the functions that check arguments are modelled with Python's rules: a bool is an int,
    comparing None or a str with a number raises TypeError, [or] and [and] stop at the first answer.  Simplifications,
    valid for the whole file: no other types of values (complex numbers, numpy scalars, ...); a list argument is None or a
    list of such values; only the checks are modelled, not what is built from values that pass them. *)
From Coq Require Import String Ascii List ZArith QArith Bool.
From Verif Require Import PyBase PyStr Graph Mode.
Import ListNotations.
Local Open Scope Q_scope.

Inductive pyval : Type := VNone | VBool (b : bool) | VInt (z : Z) | VFloat (f : fval) | VStr (s : string).
(** the number that a value is *)
Definition num (v : pyval) : option fval :=
  match v with
  | VBool b => Some (Fin (if b then 1 else 0))
  | VInt z => Some (Fin (inject_Z z))
  | VFloat f => Some f
  | VNone | VStr _ => None
  end.
(** v < c, v <= c, v > c and v >= c for a number c *)
Definition pcmp (f : fval -> fval -> bool) (v : pyval) (c : fval) : res bool :=
  match num v with Some x => Ok (f x c) | None => Err TypeError end.
Definition plt := pcmp flt.
Definition ple := pcmp fle.
Definition pgt := pcmp (fun x c => flt c x).
Definition pge := pcmp (fun x c => fle c x).
(** v > w *)
Definition pgt2 (v w : pyval) : res bool := match num w with Some c => pgt v c | None => Err TypeError end.
(** a or b *)
Definition por (a : res bool) (b : res bool) : res bool := let* x := a in if x then Ok true else b.
Definition praise_if {A} (c : res bool) (e : exn) (k : res A) : res A := let* b := c in raise_if b e k.
Definition is_none (v : pyval) : bool := match v with VNone => true | _ => false end.
(** isinstance(v, int) and isinstance(v, float) *)
Definition is_int (v : pyval) : bool := match v with VBool _ | VInt _ => true | _ => false end.
Definition is_float (v : pyval) : bool := match v with VFloat _ => true | _ => false end.
(** v == w *)
Definition peq (v w : pyval) : bool :=
  match num v, num w with
  | Some x, Some y => feq x y
  | None, None => match v, w with VNone, VNone => true | VStr s, VStr t => String.eqb s t | _, _ => false end
  | _, _ => false
  end.

(** ** graph.py *)
(** 39-58 (Node.__init__), 76-78 (CBD.__init__), 96, 114; the object keeps the values it was given *)
Record anode : Type := mkANode { an_kind : kind; an_id : pyval; an_x : pyval; an_y : pyval; an_radius : pyval; an_angle : pyval; an_width : pyval; an_zone : pyval; an_name : pyval }.
Definition node_init (k : kind) (node_id x y radius angle width zone_id name : pyval) : res anode :=
  raise_if (kind_eqb k CBD && negb (peq zone_id (VInt 0))) ZoneIdIsNotValidException (
  raise_if (is_none name) NameIsNotDefinedException (
  raise_if (is_none node_id) NodeIdIsNotValidException (
  raise_if (is_none zone_id) ZoneIdIsNotValidException (
  praise_if (plt radius f0) NodeRadiusIsNotValidException (
  praise_if (por (plt angle f0) (pgt angle (Fin 360))) NodeAngleIsNotValidException (
  praise_if (plt width f0) NodeWidthIsNotValidException (
  Ok (mkANode k node_id x y radius angle width zone_id name)))))))).
(** any object, of which those that are not nodes are not told apart *)
Inductive aobj : Type := ONode (n : anode) | OOther.
Definition of_kind (o : aobj) (k : kind) : bool := match o with ONode n => kind_eqb (an_kind n) k | OOther => false end.
(** 127-142 (Zone.__init__) *)
Definition zone_init (zone_id : pyval) (p sc : aobj) : res unit :=
  raise_if (is_none zone_id) ZoneIdIsNotValidException (
  praise_if (ple zone_id f0) ZoneIdIsNotValidException (
  match p with
  | ONode np =>
      raise_if (negb (of_kind p Periphery)) PeripheryNodeTypeIsNotValidException (
      match sc with
      | ONode nsc =>
          raise_if (negb (of_kind sc Subcenter)) SubcenterNodeTypeIsNotValidException (
          raise_if (negb (peq (an_zone np) zone_id) || negb (peq (an_zone nsc) zone_id)) ZoneIdIsNotValidException (Ok tt))
      | OOther => Err SubcenterNodeTypeIsNotValidException
      end)
  | OOther => Err PeripheryNodeTypeIsNotValidException
  end)).
(** 155-165 (Edge.__init__) *)
Definition edge_init (edge_id : pyval) (a b : aobj) : res unit :=
  raise_if (is_none edge_id) EdgeIdIsNotValidException (
  raise_if (of_kind a Periphery && of_kind b Periphery) EdgeIsNotAvailableException (
  raise_if (of_kind a Periphery && of_kind b CBD) EdgeIsNotAvailableException (
  raise_if (of_kind a CBD && of_kind b Periphery) EdgeIsNotAvailableException (
  Ok tt)))).

(** 293-310: the checks of one list *)
Definition list_check (n : pyval) (l : option (list pyval)) (elen eval : exn) (bad : pyval -> res bool) : res unit :=
  match l with
  | None => Ok tt
  | Some l =>
      raise_if (negb (peq (VInt (Z.of_nat (length l))) n)) elen (
      foldM (fun _ v => praise_if (bad v) eval (Ok tt)) l tt)
  end.
(** 257-311 (parameters_validator) *)
Definition city_validator (n l g p etha etha_zone : pyval) (angles Gi Hi : option (list pyval)) : res bool :=
  praise_if (por (plt n f0) (Ok (negb (is_int n)))) NIsNotValidNumberException (
  praise_if (plt l f0) LIsNotValidNumberException (
  praise_if (plt g f0) GIsNotValidNumberException (
  praise_if (plt p f0) PIsNotValidNumberException (
  raise_if (is_none etha && negb (is_none etha_zone)) EthaValueRequiredException (
  raise_if (negb (is_none etha) && is_none etha_zone) EthaZoneValueRequiredException (
  let* _ := (if negb (is_none etha) && negb (is_none etha_zone) then
       praise_if (por (plt etha f0) (pgt etha f1)) EthaValueIsNotValidException (
       praise_if (por (ple etha_zone f0) (por (pgt2 etha_zone n) (Ok (negb (is_int etha_zone))))) EthaZoneValueIsNotValidException (Ok tt))
     else Ok tt) in
  let* _ := list_check n angles AngleListLengthIsNotValidException AngleValueIsNotValidException (fun v => por (plt v f0) (pgt v (Fin 360))) in
  let* _ := list_check n Gi GiListLengthIsNotValidException GiValueIsNotValidException (fun v => plt v f0) in
  let* _ := list_check n Hi HiListLengthIsNotValidException HiValueIsNotValidException (fun v => plt v f0) in
  Ok true)))))).

(** ** demand.py 110-129 (parameters_validator) *)
Definition fadd (a b : fval) : fval :=
  match a, b with
  | Fin x, Fin y => Fin (x + y)
  | NaN, _ | _, NaN | PInf, NInf | NInf, PInf => NaN
  | PInf, _ | _, PInf => PInf
  | NInf, _ | _, NInf => NInf
  end.
Definition demand_check (y a alpha beta : pyval) : res bool :=
  let typed v := negb (is_int v) && negb (is_float v) in
  raise_if (typed y) YIsNotValidException (
  raise_if (typed a) AIsNotValidException (
  raise_if (typed alpha) AlphaIsNotValidException (
  raise_if (typed beta) BetaIsNotValidException (
  praise_if (plt y f0) YOutOfRangeException (
  praise_if (por (pgt a f1) (plt a f0)) AOutOfRangeException (
  praise_if (por (pgt alpha f1) (plt alpha f0)) AlphaOutOfRangeException (
  praise_if (por (pge beta f1) (plt beta f0)) BetaOutOfRangeException (
  praise_if (match num alpha, num beta with Some x, Some y => Ok (flt f1 (fadd x y)) | _, _ => Err TypeError end) AlphaBetaOutOfRangeException (
  Ok true))))))))).

(** ** network.py 501-502, 579-580: the jump of diametral and tangential routes among n zones *)
Definition jump_check (n : nat) (jump : pyval) : res unit :=
  praise_if (por (pgt jump (Fin (inject_Z (Z.of_nat n) / 2))) (por (ple jump f0) (Ok (negb (is_int jump))))) JumpIsNotValidException (Ok tt).

(** ** mode.py 21-24, 61-73 and passenger.py 16-19: the setters *)
Definition setter (a : mattr) (v : pyval) : res unit :=
  match a with
  | A_bya => raise_if (is_none v || negb (peq v (VInt 0) || peq v (VInt 1))) (mattr_exn a) (Ok tt)
  | A_theta => raise_if (is_none v) (mattr_exn a) (praise_if (por (plt v f0) (pgt v f1)) (mattr_exn a) (Ok tt))
  | A_v => raise_if (is_none v) (mattr_exn a) (praise_if (ple v f0) (mattr_exn a) (Ok tt))
  | _ => raise_if (is_none v) (mattr_exn a) (praise_if (plt v f0) (mattr_exn a) (Ok tt))
  end.
Definition passenger_setter (a : pattr) (v : pyval) : res unit :=
  raise_if (is_none v) (pattr_exn a) (praise_if (match a with P_va => ple v f0 | _ => plt v f0 end) (pattr_exn a) (Ok tt)).
(** mode.py 55-59 *)
Definition name_setter (v : pyval) : res unit := raise_if (is_none v) NameIsNotValidExceptions (Ok tt).
(** v * w; a str times an int is the str repeated *)
Fixpoint repeat_str (n : nat) (s : string) : string := match n with O => EmptyString | S n' => (s ++ repeat_str n' s)%string end.
Definition whole_of (v : pyval) : option Z := match v with VBool b => Some (if b then 1 else 0)%Z | VInt z => Some z | _ => None end.
Definition vmul (v w : pyval) : res pyval :=
  match num v, num w with
  | Some x, Some y => Ok (VFloat (fmul x y))
  | _, _ => match v, whole_of w, w, whole_of v with
            | VStr s, Some z, _, _ | _, _, VStr s, Some z => Ok (VStr (repeat_str (Z.to_nat z) s))
            | _, _, _, _ => Err TypeError
            end
  end.
(** mode.py 75-90 (TransportMode.__init__): the checks in order *)
Definition mode_init (name : pyval) (arg : mattr -> pyval) : res unit :=
  let* _ := name_setter name in
  foldM (fun _ a =>
    let* v := match a with A_fmax | A_fini => vmul (arg a) (arg A_d) | _ => Ok (arg a) end in setter a v)
    [A_bya; A_co; A_c1; A_c2; A_v; A_t; A_fmax; A_kmax; A_theta; A_tat; A_d; A_fini] tt.
(** passenger.py 44-54 (Passenger.__init__) *)
Definition passenger_init (arg : pattr -> pyval) : res unit :=
  foldM (fun _ a => passenger_setter a (arg a)) [P_va; P_pv; P_pw; P_pa; P_pt; P_spv; P_spw; P_spa; P_spt] tt.
