(** * ArgSpec: which values the constructors should refuse, and with which exception

    A verdict is the exception that a value earns, if any; the checks of a function are the list of the verdicts on its
    arguments, and the function raises the first one. *)
From Coq Require Import String Ascii List ZArith QArith Bool.
From Verif Require Import PyBase Graph Mode Args.
Import ListNotations.
Local Open Scope Q_scope.

Definition verdict : Type := option exn.
Fixpoint first (l : list verdict) : verdict := match l with [] => None | None :: l' => first l' | Some e :: _ => Some e end.
Definition outcome {A} (ok : A) (v : verdict) : res A := match v with None => Ok ok | Some e => Err e end.

(** sets of numbers; nan is in none of them *)
Definition negative (f : fval) : bool := match f with Fin q => if Qlt_le_dec q 0 then true else false | NInf => true | _ => false end.
Definition not_positive (f : fval) : bool := match f with Fin q => if Qlt_le_dec 0 q then false else true | NInf => true | _ => false end.
Definition more_than (c : Q) (f : fval) : bool := match f with Fin q => if Qlt_le_dec c q then true else false | PInf => true | _ => false end.
Definition at_least (c : Q) (f : fval) : bool := match f with Fin q => if Qlt_le_dec q c then false else true | PInf => true | _ => false end.
Definition either (s t : fval -> bool) (f : fval) : bool := s f || t f.

(** a number of the refused set earns the exception, what is not a number earns TypeError *)
Definition judge (refused : fval -> bool) (e : exn) (v : pyval) : verdict :=
  match v with
  | VNone | VStr _ => Some TypeError
  | VBool b => if refused (Fin (if b then 1 else 0)) then Some e else None
  | VInt z => if refused (Fin (inject_Z z)) then Some e else None
  | VFloat f => if refused f then Some e else None
  end.
(** so does a float where an int is needed *)
Definition judge_int (refused : fval -> bool) (e : exn) (v : pyval) : verdict :=
  match v with VFloat _ => Some e | _ => judge refused e v end.
(** the same where None earns the exception *)
Definition judge_given (refused : fval -> bool) (e : exn) (v : pyval) : verdict := match v with VNone => Some e | _ => judge refused e v end.
Definition given (e : exn) (v : pyval) : verdict := match v with VNone => Some e | _ => None end.
(** only int and float *)
Definition typed (e : exn) (v : pyval) : verdict := match v with VNone | VStr _ => Some e | _ => None end.
(** an integer value *)
Definition integer (v : pyval) (z : Z) : Prop := v = VInt z \/ exists b : bool, v = VBool b /\ z = (if b then 1 else 0)%Z.
Definition integer_of (v : pyval) : Z := match v with VInt z => z | VBool true => 1%Z | _ => 0%Z end.

Definition node_table (k : kind) (node_id radius angle width zone_id name : pyval) : list verdict :=
  [(match k, zone_id with CBD, (VInt 0 | VBool false | VFloat (Fin (0 # _))) => None | CBD, _ => Some ZoneIdIsNotValidException | _, _ => None end);
   given NameIsNotDefinedException name; given NodeIdIsNotValidException node_id; given ZoneIdIsNotValidException zone_id;
   judge negative NodeRadiusIsNotValidException radius; judge (either negative (more_than 360)) NodeAngleIsNotValidException angle;
   judge negative NodeWidthIsNotValidException width].
Definition list_table (n : pyval) (elen : exn) (refused : fval -> bool) (e : exn) (l : option (list pyval)) : list verdict :=
  match l with
  | None => []
  | Some l => (if Z.eq_dec (Z.of_nat (length l)) (integer_of n) then None else Some elen) :: map (judge refused e) l
  end.
Definition city_table (n l g p etha etha_zone : pyval) (angles Gi Hi : option (list pyval)) : list verdict :=
  [judge_int negative NIsNotValidNumberException n; judge negative LIsNotValidNumberException l;
   judge negative GIsNotValidNumberException g; judge negative PIsNotValidNumberException p] ++
  match etha, etha_zone with
  | VNone, VNone => []
  | VNone, _ => [Some EthaValueRequiredException]
  | _, VNone => [Some EthaZoneValueRequiredException]
  | _, _ => [judge (either negative (more_than 1)) EthaValueIsNotValidException etha;
             judge_int (either not_positive (more_than (inject_Z (integer_of n)))) EthaZoneValueIsNotValidException etha_zone]
  end ++
  list_table n AngleListLengthIsNotValidException (either negative (more_than 360)) AngleValueIsNotValidException angles ++
  list_table n GiListLengthIsNotValidException negative GiValueIsNotValidException Gi ++
  list_table n HiListLengthIsNotValidException negative HiValueIsNotValidException Hi.
Definition demand_table (y a alpha beta : pyval) : list verdict :=
  [typed YIsNotValidException y; typed AIsNotValidException a; typed AlphaIsNotValidException alpha; typed BetaIsNotValidException beta;
   judge negative YOutOfRangeException y; judge (either negative (more_than 1)) AOutOfRangeException a;
   judge (either negative (more_than 1)) AlphaOutOfRangeException alpha; judge (either negative (at_least 1)) BetaOutOfRangeException beta].
(** the refused values of an attribute of a mode, and of a traveller *)
Definition mode_refused (a : mattr) : fval -> bool :=
  match a with A_theta => either negative (more_than 1) | A_v => not_positive | _ => negative end.
Definition mode_verdict (a : mattr) (v : pyval) : verdict :=
  match a, v with
  | A_bya, (VBool _ | VInt 0 | VInt 1) => None
  | A_bya, VFloat (Fin q) => if Qeq_dec q 0 then None else if Qeq_dec q 1 then None else Some ByaIsNotValidExceptions
  | A_bya, _ => Some ByaIsNotValidExceptions
  | _, _ => judge_given (mode_refused a) (mattr_exn a) v
  end.
Definition passenger_verdict (a : pattr) (v : pyval) : verdict :=
  judge_given (match a with P_va => not_positive | _ => negative end) (pattr_exn a) v.
(** the sum of two finite numbers *)
Definition finite (v : pyval) : option Q :=
  match v with VBool b => Some (if b then 1 else 0) | VInt z => Some (inject_Z z) | VFloat (Fin q) => Some q | _ => None end.
Definition sum_verdict (alpha beta : pyval) : verdict :=
  match finite alpha, finite beta with
  | Some x, Some y => if Qlt_le_dec 1 (x + y) then Some AlphaBetaOutOfRangeException else None
  | _, _ => None
  end.
(** the maximum and the initial frequency are multiplied by the number of parallel lines before they are judged *)
Definition product_verdict (a : mattr) (v d : pyval) : verdict :=
  match num v, num d with Some x, Some y => mode_verdict a (VFloat (fmul x y)) | _, _ => Some TypeError end.
Definition mode_table (name : pyval) (arg : mattr -> pyval) : list verdict :=
  [given NameIsNotValidExceptions name; mode_verdict A_bya (arg A_bya); mode_verdict A_co (arg A_co); mode_verdict A_c1 (arg A_c1);
   mode_verdict A_c2 (arg A_c2); mode_verdict A_v (arg A_v); mode_verdict A_t (arg A_t); product_verdict A_fmax (arg A_fmax) (arg A_d);
   mode_verdict A_kmax (arg A_kmax); mode_verdict A_theta (arg A_theta); mode_verdict A_tat (arg A_tat); mode_verdict A_d (arg A_d);
   product_verdict A_fini (arg A_fini) (arg A_d)].
Definition passenger_table (arg : pattr -> pyval) : list verdict :=
  map (fun a => passenger_verdict a (arg a)) [P_va; P_pv; P_pw; P_pa; P_pt; P_spv; P_spw; P_spa; P_spt].
(** a node of that kind *)
Definition is_a (k : kind) (o : aobj) : bool :=
  match o with
  | ONode n => match an_kind n, k with Periphery, Periphery | Subcenter, Subcenter | CBD, CBD => true | _, _ => false end
  | OOther => false
  end.
Definition same_number (v w : pyval) : bool :=
  match num v, num w with
  | Some (Fin x), Some (Fin y) => if Qeq_dec x y then true else false
  | Some PInf, Some PInf | Some NInf, Some NInf => true
  | _, _ => false
  end.
Definition zone_table (zone_id : pyval) (p sc : aobj) : list verdict :=
  [judge_given not_positive ZoneIdIsNotValidException zone_id;
   (if is_a Periphery p then None else Some PeripheryNodeTypeIsNotValidException);
   (if is_a Subcenter sc then None else Some SubcenterNodeTypeIsNotValidException);
   match p, sc with
   | ONode a, ONode b => if same_number (an_zone a) zone_id && same_number (an_zone b) zone_id then None else Some ZoneIdIsNotValidException
   | _, _ => None
   end].
(** peripheries have arcs with subcenters only *)
Definition edge_table (edge_id : pyval) (a b : aobj) : list verdict :=
  [given EdgeIdIsNotValidException edge_id;
   if (is_a Periphery a && (is_a Periphery b || is_a CBD b)) || (is_a CBD a && is_a Periphery b) then Some EdgeIsNotAvailableException else None].
Definition jump_table (n : nat) (jump : pyval) : list verdict :=
  [judge_int (either not_positive (more_than (inject_Z (Z.of_nat n) / 2))) JumpIsNotValidException jump].
