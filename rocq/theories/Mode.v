(** * Mode: model of /repo/sidermit/publictransportsystem/mode.py and passenger.py

    Numbers are Python floats without rounding: exact rationals, the two infinities and NaN.
    Python's None is an absent [option].  Simplification: arguments are None or numbers (names:
    None or strings), never other types. *)
From Coq Require Import String List ZArith QArith Bool.
From Verif Require Import PyBase.
Import ListNotations.
Local Open Scope Q_scope.

Inductive fval : Type := Fin (q : Q) | PInf | NInf | NaN.
(** float comparisons: every comparison with NaN is False *)
Definition flt (a b : fval) : bool :=
  match a, b with
  | NaN, _ | _, NaN => false
  | Fin x, Fin y => Qltb x y
  | NInf, NInf => false | NInf, _ => true
  | Fin _, NInf => false | Fin _, PInf => true
  | PInf, _ => false
  end.
Definition fle (a b : fval) : bool :=
  match a, b with
  | NaN, _ | _, NaN => false
  | Fin x, Fin y => Qleb x y
  | NInf, _ => true
  | Fin _, NInf => false | Fin _, PInf => true
  | PInf, PInf => true | PInf, _ => false
  end.
Definition feq (a b : fval) : bool :=
  match a, b with
  | Fin x, Fin y => Qeqb x y
  | PInf, PInf | NInf, NInf => true
  | _, _ => false
  end.
Definition f0 : fval := Fin 0.
Definition f1 : fval := Fin 1.
(** float multiplication *)
Definition fscale_inf (pos : bool) (b : fval) : fval :=
  match b with
  | NaN => NaN
  | Fin q => if Qeqb q 0 then NaN else if Bool.eqb pos (Qltb 0 q) then PInf else NInf
  | PInf => if pos then PInf else NInf
  | NInf => if pos then NInf else PInf
  end.
Definition fmul (a b : fval) : fval :=
  match a, b with
  | NaN, _ => NaN
  | Fin x, Fin y => Fin (x * y)
  | PInf, _ => fscale_inf true b
  | NInf, _ => fscale_inf false b
  | Fin _, PInf => fscale_inf true a
  | Fin _, NInf => fscale_inf false a
  | Fin _, NaN => NaN
  end.

(** mode.py 29-53: the numeric attributes of a TransportMode *)
Inductive mattr : Type :=
  A_bya | A_co | A_c1 | A_c2 | A_v | A_t | A_fmax | A_kmax | A_theta | A_tat | A_d | A_fini.
Record tmode : Type := mkTMode {
  tm_name : string;
  tm_bya : fval; tm_co : fval; tm_c1 : fval; tm_c2 : fval; tm_v : fval; tm_t : fval;
  tm_fmax : fval; tm_kmax : fval; tm_theta : fval; tm_tat : fval; tm_d : fval; tm_fini : fval
}.
Definition get_attr (m : tmode) (a : mattr) : fval :=
  match a with
  | A_bya => tm_bya m | A_co => tm_co m | A_c1 => tm_c1 m | A_c2 => tm_c2 m | A_v => tm_v m | A_t => tm_t m
  | A_fmax => tm_fmax m | A_kmax => tm_kmax m | A_theta => tm_theta m | A_tat => tm_tat m | A_d => tm_d m
  | A_fini => tm_fini m
  end.
(** self.__setattr__ (mode.py 24, 66, 73) *)
Definition put_attr (m : tmode) (a : mattr) (x : fval) : tmode :=
  let '(mkTMode nm bya co c1 c2 v t fmax kmax theta tat d fini) := m in
  match a with
  | A_bya => mkTMode nm x co c1 c2 v t fmax kmax theta tat d fini
  | A_co => mkTMode nm bya x c1 c2 v t fmax kmax theta tat d fini
  | A_c1 => mkTMode nm bya co x c2 v t fmax kmax theta tat d fini
  | A_c2 => mkTMode nm bya co c1 x v t fmax kmax theta tat d fini
  | A_v => mkTMode nm bya co c1 c2 x t fmax kmax theta tat d fini
  | A_t => mkTMode nm bya co c1 c2 v x fmax kmax theta tat d fini
  | A_fmax => mkTMode nm bya co c1 c2 v t x kmax theta tat d fini
  | A_kmax => mkTMode nm bya co c1 c2 v t fmax x theta tat d fini
  | A_theta => mkTMode nm bya co c1 c2 v t fmax kmax x tat d fini
  | A_tat => mkTMode nm bya co c1 c2 v t fmax kmax theta x d fini
  | A_d => mkTMode nm bya co c1 c2 v t fmax kmax theta tat x fini
  | A_fini => mkTMode nm bya co c1 c2 v t fmax kmax theta tat d x
  end.
(** mode.py 33-53, 62-72: the exception of each setter *)
Definition mattr_exn (a : mattr) : exn :=
  match a with
  | A_bya => ByaIsNotValidExceptions | A_co => CoIsNotValidExceptions | A_c1 => C1IsNotValidExceptions
  | A_c2 => C2IsNotValidExceptions | A_v => VIsNotValidExceptions | A_t => TIsNotValidExceptions
  | A_fmax => FmaxIsNotValidExceptions | A_kmax => KmaxIsNotValidExceptions | A_theta => ThetaIsNotValidExceptions
  | A_tat => TatIsNotValidExceptions | A_d => DIsNotValidExceptions | A_fini => FiniIsNotValidException
  end.
(** mode.py 21-24 (comp_function is operator.le for v, operator.lt for the others), 61-66, 68-73 *)
Definition rejects (a : mattr) (x : fval) : bool :=
  match a with
  | A_bya => negb (feq x f0 || feq x f1)
  | A_theta => flt x f0 || flt f1 x
  | A_v => fle x f0
  | _ => flt x f0
  end.
Definition set_attr (m : tmode) (a : mattr) (x : option fval) : tmode * option exn :=
  match x with
  | None => (m, Some (mattr_exn a))
  | Some y => if rejects a y then (m, Some (mattr_exn a)) else (put_attr m a y, None)
  end.
(** mode.py 55-59 (name setter) *)
Definition set_name (m : tmode) (x : option string) : tmode * option exn :=
  match x with
  | None => (m, Some NameIsNotValidExceptions)
  | Some s =>
      let '(mkTMode _ bya co c1 c2 v t fmax kmax theta tat d fini) := m in
      (mkTMode s bya co c1 c2 v t fmax kmax theta tat d fini, None)
  end.
Definition set_attr_r (m : tmode) (a : mattr) (x : option fval) : res tmode :=
  match set_attr m a x with (m', None) => Ok m' | (_, Some e) => Err e end.
Definition set_name_r (m : tmode) (x : option string) : res tmode :=
  match set_name m x with (m', None) => Ok m' | (_, Some e) => Err e end.

(** fmax * d in Python: TypeError when one of them is None *)
Definition pymul (x y : option fval) : res (option fval) :=
  match x, y with Some a, Some b => Ok (Some (fmul a b)) | _, _ => Err TypeError end.

Record mode_args : Type := mkModeArgs {
  ar_name : option string;
  ar_bya : option fval; ar_co : option fval; ar_c1 : option fval; ar_c2 : option fval; ar_v : option fval;
  ar_t : option fval; ar_fmax : option fval; ar_kmax : option fval; ar_theta : option fval;
  ar_tat : option fval; ar_d : option fval; ar_fini : option fval
}.
(** the object before __init__ runs (its attributes do not exist yet: every one is assigned below) *)
Definition blank : tmode := mkTMode EmptyString NaN NaN NaN NaN NaN NaN NaN NaN NaN NaN NaN NaN.
(** mode.py 75-90 (__init__) *)
Definition new_mode (r : mode_args) : res tmode :=
  let* m := set_name_r blank (ar_name r) in
  let* m := set_attr_r m A_bya (ar_bya r) in
  let* m := set_attr_r m A_co (ar_co r) in
  let* m := set_attr_r m A_c1 (ar_c1 r) in
  let* m := set_attr_r m A_c2 (ar_c2 r) in
  let* m := set_attr_r m A_v (ar_v r) in
  let* m := set_attr_r m A_t (ar_t r) in
  let* fm := pymul (ar_fmax r) (ar_d r) in
  let* m := set_attr_r m A_fmax fm in
  let* m := set_attr_r m A_kmax (ar_kmax r) in
  let* m := set_attr_r m A_theta (ar_theta r) in
  let* m := set_attr_r m A_tat (ar_tat r) in
  let* m := set_attr_r m A_d (ar_d r) in
  let* fi := pymul (ar_fini r) (ar_d r) in
  set_attr_r m A_fini fi.

(** mode.py 98-103 (get_default_modes) *)
Definition q_args (nm : string) (bya co c1 c2 v t fmax kmax theta tat d fini : Q) : mode_args :=
  mkModeArgs (Some nm) (Some (Fin bya)) (Some (Fin co)) (Some (Fin c1)) (Some (Fin c2)) (Some (Fin v))
    (Some (Fin t)) (Some (Fin fmax)) (Some (Fin kmax)) (Some (Fin theta)) (Some (Fin tat)) (Some (Fin d))
    (Some (Fin fini)).
Definition bus_args : mode_args :=
  q_args "bus" 1 (861#100) (15#100) 0 20 (25#10) 150 160 (7#10) 0 4 28.
Definition metro_args : mode_args :=
  q_args "metro" 0 (8091#100) (3#10) (93315#100) 40 (33#100) 40 1440 (5#10) 1 1 28.

(** Assignments a client can make on a mode *)
Inductive mode_op : Type :=
| OpName (s : option string)
| OpAttr (a : mattr) (x : option fval).
Definition mode_step (m : tmode) (op : mode_op) : tmode :=
  match op with OpName s => fst (set_name m s) | OpAttr a x => fst (set_attr m a x) end.
Definition mode_run (m : tmode) (ops : list mode_op) : tmode := fold_left mode_step ops m.

(** ** TransportModeManager (mode.py 106-196)

    Mode objects live in a heap; the manager holds references (positions). *)
Record manager : Type := mkManager { mg_names : list string; mg_modes : list nat }.
Record world : Type := mkWorld { w_heap : list tmode; w_mgr : manager }.

Definition index_of (name : string) (l : list string) : option nat :=
  (fix go l i := match l with
                 | [] => None
                 | x :: l' => if (x =? name)%string then Some i else go l' (S i)
                 end) l 0%nat.
Definition pop_nth {A} (l : list A) (i : nat) : list A := firstn i l ++ skipn (S i) l.

(** mode.py 142-153 (get_mode): the reference of the mode *)
Definition get_mode (g : manager) (name : string) : res nat :=
  match index_of name (mg_names g) with
  | None => Err ModeNotFoundExceptions
  | Some i => py_nth (mg_modes g) i
  end.
(** mode.py 169-182 (add_mode) *)
Definition add_mode (w : world) (ref : nat) : world * option exn :=
  match nth_error (w_heap w) ref with
  | None => (w, Some ModeIsNotValidException) (* not a TransportMode object *)
  | Some m =>
      if smem (tm_name m) (mg_names (w_mgr w)) then (w, Some AddModeExceptions)
      else (mkWorld (w_heap w)
              (mkManager (mg_names (w_mgr w) ++ [tm_name m]) (mg_modes (w_mgr w) ++ [ref])), None)
  end.
(** mode.py 184-196 (remove_mode) *)
Definition remove_mode (w : world) (name : string) : world * option exn :=
  match index_of name (mg_names (w_mgr w)) with
  | Some i => (mkWorld (w_heap w)
                 (mkManager (pop_nth (mg_names (w_mgr w)) i) (pop_nth (mg_modes (w_mgr w)) i)), None)
  | None => (w, Some ModeDoesNotExistExceptions)
  end.
(** assignment to an attribute of a mode object: visible through the manager *)
Definition upd_heap (h : list tmode) (ref : nat) (f : tmode -> tmode) : list tmode :=
  match nth_error h ref with
  | Some m => firstn ref h ++ f m :: skipn (S ref) h
  | None => h
  end.
Inductive mgr_op : Type :=
| MAdd (ref : nat)
| MRemove (name : string)
| MSet (ref : nat) (op : mode_op).
Definition mgr_step (w : world) (op : mgr_op) : world :=
  match op with
  | MAdd ref => fst (add_mode w ref)
  | MRemove name => fst (remove_mode w name)
  | MSet ref o => mkWorld (upd_heap (w_heap w) ref (fun m => mode_step m o)) (w_mgr w)
  end.
Definition mgr_run (w : world) (ops : list mgr_op) : world := fold_left mgr_step ops w.
(** mode.py 107-121 (__init__): empty, or with the two default modes at positions 0 and 1 *)
Definition empty_manager : manager := mkManager [] [].
Definition default_world : res world :=
  let* bus := new_mode bus_args in
  let* metro := new_mode metro_args in
  Ok (mkWorld [bus; metro] (mkManager [tm_name bus; tm_name metro] [0; 1]%nat)).

(** mode.py 123-140 (is_valid_to_assignment_step) on the list of the modes' d *)
Definition is_valid_to_assignment_step (ds : list fval) : res bool :=
  match ds with
  | [_] => Ok true
  | [a; b] => if feq a f1 || feq b f1 then Ok true else Err TransportNetworkException
  | _ => Err TransportNetworkException
  end.

(** ** Passenger (passenger.py 24-54) *)
Inductive pattr : Type := P_va | P_pv | P_pw | P_pa | P_pt | P_spv | P_spw | P_spa | P_spt.
Record passenger : Type := mkPassenger {
  ps_va : fval; ps_pv : fval; ps_pw : fval; ps_pa : fval; ps_pt : fval;
  ps_spv : fval; ps_spw : fval; ps_spa : fval; ps_spt : fval
}.
Definition get_pattr (p : passenger) (a : pattr) : fval :=
  match a with
  | P_va => ps_va p | P_pv => ps_pv p | P_pw => ps_pw p | P_pa => ps_pa p | P_pt => ps_pt p
  | P_spv => ps_spv p | P_spw => ps_spw p | P_spa => ps_spa p | P_spt => ps_spt p
  end.
Definition put_pattr (p : passenger) (a : pattr) (x : fval) : passenger :=
  let '(mkPassenger va pv pw pa pt spv spw spa spt) := p in
  match a with
  | P_va => mkPassenger x pv pw pa pt spv spw spa spt
  | P_pv => mkPassenger va x pw pa pt spv spw spa spt
  | P_pw => mkPassenger va pv x pa pt spv spw spa spt
  | P_pa => mkPassenger va pv pw x pt spv spw spa spt
  | P_pt => mkPassenger va pv pw pa x spv spw spa spt
  | P_spv => mkPassenger va pv pw pa pt x spw spa spt
  | P_spw => mkPassenger va pv pw pa pt spv x spa spt
  | P_spa => mkPassenger va pv pw pa pt spv spw x spt
  | P_spt => mkPassenger va pv pw pa pt spv spw spa x
  end.
Definition pattr_exn (a : pattr) : exn :=
  match a with
  | P_va => VaIsNotValidExceptions | P_pv => PvIsNotValidExceptions | P_pw => PwIsNotValidExceptions
  | P_pa => PaIsNotValidExceptions | P_pt => PtIsNotValidExceptions | P_spv => SpvIsNotValidExceptions
  | P_spw => SpwIsNotValidExceptions | P_spa => SpaIsNotValidExceptions | P_spt => SptIsNotValidExceptions
  end.
(** passenger.py 16-19 *)
Definition prejects (a : pattr) (x : fval) : bool :=
  match a with P_va => fle x f0 | _ => flt x f0 end.
Definition set_pattr (p : passenger) (a : pattr) (x : option fval) : passenger * option exn :=
  match x with
  | None => (p, Some (pattr_exn a))
  | Some y => if prejects a y then (p, Some (pattr_exn a)) else (put_pattr p a y, None)
  end.
Definition set_pattr_r (p : passenger) (a : pattr) (x : option fval) : res passenger :=
  match set_pattr p a x with (p', None) => Ok p' | (_, Some e) => Err e end.
(** passenger.py 44-54 (__init__): the arguments in order *)
Definition blank_p : passenger := mkPassenger NaN NaN NaN NaN NaN NaN NaN NaN NaN.
Definition new_passenger (args : pattr -> option fval) : res passenger :=
  foldM (fun p a => set_pattr_r p a (args a)) [P_va; P_pv; P_pw; P_pa; P_pt; P_spv; P_spw; P_spa; P_spt] blank_p.
Definition pass_run (p : passenger) (ops : list (pattr * option fval)) : passenger :=
  fold_left (fun p o => fst (set_pattr p (fst o) (snd o))) ops p.
